(* From a Markdown source to its page. *)
From Coq Require Import Lia ZifyBool ZifyNat String.
From Verif Require Import MarkdownBlockSpec MarkdownLayoutSpec MarkdownProofs MarkdownHtml MarkdownBlocks MarkdownTree MarkdownLayout StringViewProofs NumTextProofs.
Local Open Scope list_scope.
Local Notation length := List.length.
Local Notation "'do' p <- m ; k" := (match m with Some p => k | None => None end) (at level 200, p pattern, m at level 100, k at level 200).

(* ---- numbers of lists, levels of headings ---- *)
Definition fine (n : node) : Prop :=
  match type n with List_ => -1 <= listStartNumber n < 2 ^ 31 | Heading => (1 <= indentOrLevel n <= 6)%nat | _ => True end.
Definition allFine (p : parser) : Prop := Forall fine (nodes p).
Lemma upd_fine f ns : (forall n, fine n -> fine (f n)) -> Forall fine ns -> forall i, Forall fine (upd i f ns).
Proof. intros H F. induction F as [|n ns Hn F IH]; intros [|i]; cbn [upd]; constructor; auto. Qed.
Lemma make_fine ns n i ns' : make ns n = (i, ns') -> fine n -> Forall fine ns -> Forall fine ns'.
Proof. intros E Fn F. injection E as _ <-. apply Forall_app. split; [apply upd_fine; [auto|exact F]|constructor; [exact Fn|constructor]]. Qed.
Lemma mark_fine f : (forall l l', f l = Some l' -> fine l -> fine l') -> forall st ns ns' b, Forall fine ns -> markLists f ns st = Some (ns', b) -> Forall fine ns'.
Proof.
  intros Hf. induction st as [|i st IH]; intros ns ns' b F E; cbn [markLists] in E; [injection E as <- _; exact F|]. destruct (nth_error ns i) as [n|]; [|discriminate]. destruct (type n); try (eapply IH; eassumption).
  destruct (nth_error ns (parent n)) as [l|] eqn:N; [|discriminate]. destruct (type l) eqn:Tl; try discriminate E. destruct (f l) as [l'|] eqn:Fl; [|eapply IH; eassumption]. destruct (markLists f (upd (parent n) (fun _ => l') ns) st) as [[ns2 b2]|] eqn:M; [|discriminate]. injection E as <- _.
  eapply IH; [|exact M]. apply upd_fine; [|exact F]. intros _ _. eapply Hf; [exact Fl|]. rewrite Forall_forall in F. apply F. eapply nth_error_In; exact N.
Qed.
Lemma may_fine l l' : mayBeLoose l = Some l' -> fine l -> fine l'.
Proof. unfold mayBeLoose. destruct (isLoose l); [discriminate|]. intros E. injection E as <-. auto. Qed.
Lemma now_fine l l' : nowLoose l = Some l' -> fine l -> fine l'.
Proof. unfold nowLoose. destruct (isLooseIfContinued l); [|discriminate]. intros E. injection E as <-. auto. Qed.
Lemma cut_nodes p keep : nodes (cutStack p keep) = nodes p.
Proof. unfold cutStack. destruct (keep <? length (blockNodes p))%nat; reflexivity. Qed.
Lemma code_fine p i line from p' : allFine p -> addCode p i line from = Some p' -> allFine p'.
Proof.
  unfold allFine. intros F E. unfold addCode in E. destruct (extractCodeLine line from) as [code|]; [|discriminate]. injection E as <-. cbn [nodes]. apply upd_fine; [auto|exact F].
Qed.
Lemma match_fine p line p' k : allFine p -> matchExistingIndentation p line = Some (p', k) -> allFine p'.
Proof.
  unfold allFine. intros G E. unfold matchExistingIndentation in E. destruct (matchLoop (nodes p) (skipn 1 (blockNodes p)) 1 (mklc line 0 0)) as [[keep k0]|]; [|discriminate]. destruct (trim (rest k0)); [|injection E as <- _; rewrite cut_nodes; exact G].
  match type of E with match ?m with Some _ => _ | None => None end = _ => destruct m as [p1|] eqn:P1; [|discriminate E] end.
  assert (G1 : Forall fine (nodes p1)) by (destruct (isLeaf p Paragraph); [destruct (numBlank p =? 0)%nat; [|discriminate]|]; injection P1 as <-; exact G). destruct (keepItems (nodes p1) (skipn keep (blockNodes p1)) keep) as [keep2|]; [|discriminate].
  assert (G2 : Forall fine (nodes (cutStack p1 keep2))) by (rewrite cut_nodes; exact G1). set (p2 := cutStack p1 keep2) in *. clearbody p2. destruct (leafNode p2) as [i|].
  - destruct (isLeaf p2 CodeBlock); [|discriminate]. destruct (innerIndent k0) as [x|]; [|discriminate]. destruct (4 <? x)%nat; [|injection E as <- _; exact G2]. destruct (addCode p2 i line (outerIndent k0 + 4)) as [p3|] eqn:A; [|discriminate]. injection E as <- _. eapply code_fine; eassumption.
  - destruct (markLists mayBeLoose (nodes p2) (blockNodes p2)) as [[ns any]|] eqn:M; [|discriminate]. injection E as <- _. eapply mark_fine; [exact may_fine|exact G2|exact M].
Qed.
Lemma got_fine p level num punc p' : -1 <= num < 2 ^ 31 -> allFine p -> gotListMarker p level num punc = Some p' -> allFine p'.
Proof.
  unfold allFine. intros B G E. unfold gotListMarker in E. destruct (hd_error (rev (blockNodes p))) as [top|]; [|discriminate]. destruct (nth_error (nodes p) top) as [ctr|]; [|discriminate].
  assert (E' : exists l pc, (let (listNode, ns) := match l with Some l => (l, nodes p) | None => make (nodes p) (mkn List_ pc 0 num punc false false [] []) end in
    let (item, ns) := make ns (mkn ListItem listNode level 0 45 false false [] []) in Some (mkp ns (blockNodes p ++ [item]) None 0 (checkCont p))) = Some p').
  { destruct (type ctr) eqn:Tc; try discriminate E;
      match type of E with match ?m with Some _ => _ | None => None end = _ => destruct m as [[l pc]|]; [|discriminate E] end; exists l, pc; exact E. }
  destruct E' as (l & pc & E1). clear E. destruct l as [l|].
  - destruct (make (nodes p) (mkn ListItem l level 0 45 false false [] [])) as [item ns2] eqn:M. injection E1 as <-. eapply make_fine; [exact M|exact I|exact G].
  - destruct (make (nodes p) (mkn List_ pc 0 num punc false false [] [])) as [ln ns1] eqn:M1. destruct (make ns1 (mkn ListItem ln level 0 45 false false [] [])) as [item ns2] eqn:M. injection E1 as <-. eapply make_fine; [exact M|exact I|]. eapply make_fine; [exact M1|exact B|exact G].
Qed.
Lemma marker_number c r num : isDecimalDigit c = true -> parse_u64 (c :: r) 10 = Some num -> (length (c :: r) - length (prest num) <= 9)%nat -> 0 <= pval num < 2 ^ 31.
Proof.
  intros Dg E L. destruct (digits_split (c :: r)) as (ds & u & Es & F & U). destruct ds as [|c1 ds]; [exfalso; cbn in Es; subst u; apply U; unfold isDecimalDigit in Dg; unfold digit; lia|].
  rewrite Es in E, L. rewrite (parse_u64_digits 10 (c1 :: ds) (numberOf (c1 :: ds)) u ltac:(lia) (digits_denote _ F) ltac:(discriminate)) in E by (destruct u as [|x u]; [exact I|apply nodigit', U]).
  match type of E with Some ?x = _ => assert (N : num = x) by congruence end. subst num. clear E. assert (Pr : (length ((c1 :: ds) ++ u) - length u <= 9)%nat) by (destruct (numberOf (c1 :: ds) <? 2 ^ 64); exact L). rewrite app_length in Pr. pose proof (digits_bound _ F) as B. pose proof (fold_pos (c1 :: ds) 0 F ltac:(lia)) as P. fold (numberOf (c1 :: ds)) in P.
  pose proof (Z.pow_le_mono_r 10 (Z.of_nat (length (c1 :: ds))) 9 ltac:(lia) ltac:(lia)) as Q. destruct (numberOf (c1 :: ds) <? 2 ^ 64); cbn [pval]; lia.
Qed.
Lemma one_fine p k p' k' : allFine p -> oneMarker p k = Some (Some (p', k')) -> allFine p'.
Proof.
  intros G E. unfold oneMarker in E. destruct (rest k) as [|c r]; [discriminate|]. destruct (isWhite c); [discriminate|]. destruct (c =? 62).
  - destruct (hd_error (rev (blockNodes p))) as [top|]; [|discriminate]. destruct (make (nodes p) (newNode top BlockQuote)) as [q ns] eqn:M. injection E as <- _. eapply make_fine; [exact M|exact I|exact G].
  - destruct ((c =? 42) || (c =? 45) || (c =? 43)).
    + destruct (afterMarker p r (outerIndent k) (S (indent k))) as [k1|]; [|discriminate]. destruct (gotListMarker p (outerIndent k1) (-1) c) as [p1|] eqn:Gt; [|discriminate]. injection E as <- _. eapply got_fine; [|exact G|exact Gt]. lia.
    + destruct (isDecimalDigit c) eqn:Dg; [|discriminate]. destruct (parse_u64 (c :: r) 10) as [num|] eqn:P; [|discriminate]. match type of E with (if ?b then _ else _) = _ => destruct b eqn:Hb; [discriminate E|] end. apply orb_false_elim in Hb. destruct Hb as (_ & Hb). pose proof (marker_number c r num Dg P ltac:(apply Nat.ltb_ge in Hb; exact Hb)) as B.
      destruct (prest num) as [|punc [|x r2]]; try discriminate E. destruct ((punc =? 46) || (punc =? 41)); [|discriminate].
      match type of E with match ?m with Some _ => _ | None => _ end = _ => destruct m as [k1|]; [|discriminate E] end. destruct (gotListMarker p (outerIndent k1) (pval num) punc) as [p1|] eqn:Gt; [|discriminate]. injection E as <- _. eapply got_fine; [|exact G|exact Gt]. lia.
Qed.
Lemma markers_fine fuel : forall p k p' k', allFine p -> parseNewMarkers fuel p k = Some (p', k') -> allFine p'.
Proof.
  induction fuel as [|fuel IH]; intros p k p' k' G E; cbn [parseNewMarkers] in E; [discriminate|]. destruct (rest k); [injection E as <- _; exact G|]. destruct (innerIndent k) as [x|]; [|discriminate]. destruct (4 <=? x)%nat; [injection E as <- _; exact G|].
  destruct (oneMarker p k) as [[[p1 k1]|]|] eqn:M; [|injection E as <- _; exact G|discriminate]. eapply IH; [eapply one_fine; eassumption|exact E].
Qed.
Lemma heading_level r level u : heading (35 :: r) = Some (level, u) -> (1 <= level <= 6)%nat.
Proof.
  unfold heading. cbn [span Z.eqb Pos.eqb]. destruct (span (fun c => c =? 35) r) as [a b]. destruct (span isWhite b) as [sp r2]. cbn [length]. destruct (S (length a) <=? 6)%nat eqn:L; [|discriminate]. cbn [andb]. destruct (_ || _); [|discriminate]. intros E. injection E as <- _. lia.
Qed.
Lemma para_fine p line k p' : allFine p -> parseParagraphText p line k = Some p' -> allFine p'.
Proof.
  unfold allFine. intros G E. unfold parseParagraphText in E. destruct (innerIndent k) as [x|]; [|discriminate]. destruct (hd_error (rev (blockNodes p))) as [top|]; [|discriminate]. destruct (negb (isLeaf p Paragraph) && (4 <=? x)%nat).
  - match type of E with match ?m with Some _ => _ | None => None end = _ => destruct m as [p1|] eqn:P1; [|discriminate E] end.
    assert (G1 : Forall fine (nodes p1)).
    { destruct (trim (rest k)); [injection P1 as <-; exact G|]. destruct (leafNode p); [injection P1 as <-; exact G|]. destruct (numBlank p =? 0)%nat; [|discriminate]. destruct (make (nodes p) (newNode top CodeBlock)) as [i ns] eqn:M. injection P1 as <-. eapply make_fine; [exact M|exact I|exact G]. }
    destruct (leafNode p1) as [i|]; [|injection E as <-; exact G1]. destruct (isLeaf p1 CodeBlock); [|discriminate]. eapply code_fine; eassumption.
  - destruct (trim (rest k)) as [|t0 t]; [destruct (leafNode p); [discriminate|]; injection E as <-; exact G|].
    match type of E with match ?m with Some _ => _ | None => None end = _ => destruct m as [p1|] eqn:P1; [|discriminate E] end.
    assert (G1 : Forall fine (nodes p1)).
    { destruct (checkCont p); [|injection P1 as <-; auto]. destruct (leafNode p); [discriminate|]. destruct (markLists nowLoose (nodes p) (blockNodes p)) as [[ns b]|] eqn:M; [|discriminate]. injection P1 as <-. eapply mark_fine; [exact now_fine|exact G|exact M]. }
    assert (Para : (if isLeaf p Paragraph then do i <- leafNode p1; Some (mkp (upd i (addRaw [t0 :: t]) (nodes p1)) (blockNodes p1) (leafNode p1) (numBlank p1) (checkCont p1))
        else let (i, ns) := make (nodes p1) (addRaw [t0 :: t] (newNode top Paragraph)) in Some (mkp ns (blockNodes p1) (Some i) 0 (checkCont p1))) = Some p' -> Forall fine (nodes p')).
    { intros Ep. destruct (isLeaf p Paragraph).
      - destruct (leafNode p1) as [i|]; [|discriminate]. injection Ep as <-. apply upd_fine; [auto|exact G1].
      - destruct (make (nodes p1) (addRaw [t0 :: t] (newNode top Paragraph))) as [i ns] eqn:M. injection Ep as <-. eapply make_fine; [exact M|exact I|exact G1]. }
    destruct (rest k) as [|c r]; [discriminate|]. destruct ((c =? 35) && _) eqn:Hc; [|apply Para, E]. apply andb_prop in Hc. destruct Hc as (Hc & _). apply Z.eqb_eq in Hc. subst c. destruct (heading (35 :: r)) as [[level r2]|] eqn:Hd; [|apply Para, E].
    match type of E with (let (_, _) := make ?a ?b in _) = _ => destruct (make a b) as [i ns] eqn:M end. injection E as <-. eapply make_fine; [exact M|exact (heading_level _ _ _ Hd)|exact G1].
Qed.
Lemma lines_fine fuel : forall p src p', allFine p -> parseLines fuel p src = Some p' -> allFine p'.
Proof.
  induction fuel as [|fuel IH]; intros p src p' G E; cbn [parseLines] in E; [discriminate|]. destruct (readLine src) as [[|c line] src2]; [injection E as <-; exact G|]. destruct (parseLine p (c :: line)) as [p1|] eqn:P; [|discriminate]. eapply IH; [|exact E].
  unfold parseLine in P. destruct (matchExistingIndentation p (c :: line)) as [[p2 k]|] eqn:M; [|discriminate]. pose proof (match_fine _ _ _ _ G M) as G1. destruct k as [k|]; [|injection P as <-; exact G1].
  destruct (parseNewMarkers (S (length (rest k))) p2 k) as [[p3 k2]|] eqn:N; [|discriminate]. eapply para_fine; [eapply markers_fine; [exact G1|exact N]|exact P].
Qed.

(* ---- the document ---- *)
Fixpoint shaped (b : block) : Prop :=
  match b with
  | BList start _ l => -1 <= start < 2 ^ 31 /\ (fix all l := match l with [] => True | b :: l => shaped b /\ all l end) l
  | BItem l | BQuote l => (fix all l := match l with [] => True | b :: l => shaped b /\ all l end) l
  | BHeading level id _ => (1 <= level <= 6)%nat /\ id = []
  | _ => True
  end.
Lemma shaped_all l : (fix all l := match l with [] => True | b :: l => shaped b /\ all l end) l <-> Forall shaped l.
Proof. induction l as [|b l IH]; split; intros H; try constructor; try (apply H); try (apply IH, H); inversion H; subst; try assumption. apply IH. assumption. Qed.
Lemma inlines_shaped ns : Forall fine ns -> forall fuel i b, doInlines fuel ns i = Some b -> shaped b.
Proof.
  intros F. induction fuel as [|fuel IH]; intros i b E; cbn [doInlines] in E; [discriminate|]. destruct (nth_error ns i) as [n|] eqn:En; [|discriminate]. assert (Fn : fine n) by (rewrite Forall_forall in F; apply F; eapply nth_error_In; exact En).
  assert (S : forall l bs, seqOpt (map (doInlines fuel ns) l) = Some bs -> Forall shaped bs).
  { intros l bs S. apply seqOpt_spec in S. revert bs S. induction l as [|x l IHl]; intros bs S; cbn [map] in S; inversion S as [|? b0 ? bs0 E1 E2]; subst; constructor; [eapply IH; exact E1|apply IHl; exact E2]. }
  unfold fine in Fn. destruct (type n); try discriminate E.
  - destruct (seqOpt (map (doInlines fuel ns) (kids n))) as [bs|] eqn:Sq; [|discriminate]. injection E as <-. split; [exact Fn|]. apply shaped_all. eapply S; exact Sq.
  - destruct (seqOpt (map (doInlines fuel ns) (kids n))) as [bs|] eqn:Sq; [|discriminate]. injection E as <-. apply shaped_all. eapply S; exact Sq.
  - destruct (seqOpt (map (doInlines fuel ns) (kids n))) as [bs|] eqn:Sq; [|discriminate]. injection E as <-. apply shaped_all. eapply S; exact Sq.
  - destruct (expandInlineElements (rawLines n)); [|discriminate]. injection E as <-. split; [exact Fn|reflexivity].
  - destruct (expandInlineElements (rawLines n)); [|discriminate]. injection E as <-. exact I.
  - injection E as <-. exact I.
Qed.
Lemma parse_shaped src doc : parse src = Some doc -> Forall shaped doc.
Proof.
  unfold parse, parseBlocks. intros E. destruct (parseLines (S (length src)) parser0 src) as [p|] eqn:P; [|discriminate]. assert (F : allFine p) by (eapply lines_fine; [|exact P]; constructor; [exact I|constructor]).
  unfold document in E. destruct (nth_error (nodes p) 0) as [n|]; [|discriminate]. apply seqOpt_spec in E. revert doc E. induction (kids n) as [|k ks IH]; intros doc E; cbn [map] in E; inversion E as [|? b ? bs E1 E2]; subst; constructor; [eapply inlines_shaped; [exact F|exact E1]|apply IH; exact E2].
Qed.
Definition leafOk (P : list Z -> Prop) (b : block) : Prop := match b with BPara l | BHeading _ _ l => Forall (inlOk P) l | BCode ls => Forall P ls | _ => False end.
Lemma leaf_bytes (Q : Z -> Prop) src doc : Q 32 -> Q 10 -> Forall Q src -> parse src = Some doc -> Forall (leafOk (Forall Q)) (flat_map leaves doc).
Proof.
  intros H32 H10 B E. destruct (text_kept src doc E) as (ls & es & order & Ls & En & _ & Ho & _).
  assert (Bl : Forall (Forall Q) ls).
  { clear -B Ls. induction Ls as [|l _ _|l s ls _ _ IH]; [constructor|constructor; [exact B|constructor]|]. apply Forall_app in B. destruct B as (B1 & B2). apply Forall_app in B2. constructor; [apply Forall_app; split; [exact B1|apply B2]|apply IH, B2]. }
  assert (Be : Forall (fun e => match e with Nothing => True | Put _ t | Code _ t => Forall Q t end) es).
  { clear -H32 Bl En. induction En as [|l e ls es He En IH]; [constructor|]. inversion Bl as [|? ? B1 B2]; subst. constructor; [|apply IH, B2]. destruct He as [line _|i m t w _ _ _|i m t _ _|i m t j _ _].
    - exact I.
    - apply Forall_app in B1. destruct B1 as (_ & B1). apply Forall_app in B1. apply B1.
    - apply Forall_app in B1. apply B1.
    - apply Forall_app in B1. destruct B1 as (_ & B1). apply Forall_app in B1. apply Forall_app. split; [apply Forall_forall; intros x I; apply repeat_spec in I; subst; exact H32|apply B1]. }
  assert (Bt : forall i, Forall (Forall Q) (textsOf i es) /\ Forall (Forall Q) (codeOf i es)).
  { intros i. clear -Be. induction Be as [|e es He Be (I1 & I2)]; [split; constructor|]. unfold textsOf, codeOf in *. cbn [flat_map]. destruct e as [|j t|j t]; cbn [app]; [auto| |]; (destruct (j =? i)%nat; [split; try constructor; auto|auto]). }
  assert (Bj : forall l, Forall (Forall Q) l -> Forall Q (joined l)).
  { clear -H10. induction l as [|x l IH]; intros F; [constructor|]. inversion F as [|? ? Hl Hls]; subst. destruct l as [|m l]; [exact Hl|]. change (joined (x :: m :: l)) with (x ++ [10] ++ joined (m :: l)). apply Forall_app. split; [exact Hl|]. constructor; [exact H10|]. apply IH. exact Hls. }
  clear -H32 H10 Ho Bt Bj. induction Ho as [|i b is bs Hb Ho IH]; [constructor|]. constructor; [|exact IH]. destruct (Bt i) as (B1 & B2). destruct b; cbn [holds leafOk] in *; try contradiction.
  - destruct Hb as (_ & _ & S). exact (says_all Q H32 _ _ S (Bj _ B1)).
  - destruct Hb as (_ & _ & S). exact (says_all Q H32 _ _ S (Bj _ B1)).
  - destruct Hb as (_ & _ & S). revert B2. generalize (codeOf i es) as ts, S. clear -H10. intros ts S. induction S as [|r ts n x S IH]; intros B2; [constructor|]. apply Forall_app in B2. destruct B2 as (B1 & B2). apply Forall_app. split; [apply IH, B1|]. apply Forall_app. split; [apply Forall_forall; intros y I; apply repeat_spec in I; subst; constructor; [exact H10|constructor]|exact B2].
Qed.
Lemma block_whole (P : list Z -> Prop) b : P [] -> forall tight, shaped b -> Forall (leafOk P) (leaves b) -> full tight b -> MarkdownSpec.blockOk P tight b.
Proof.
  intros Pn. induction b as [s x l IH|l IH|l IH|n id l|l|l] using block_ind'; intros tight Sh Lf Fu.
  - inversion Fu as [? ? ? ? Fl| | | | |]; subst. destruct Sh as (Hs & Sh). apply shaped_all in Sh. constructor; [exact Hs|]. cbn [leaves] in Lf. clear Fu. induction IH as [|b l Hb IH IHl]; constructor; inversion Sh; subst; inversion Fl; subst; cbn [flat_map] in Lf; apply Forall_app in Lf; destruct Lf as (L1 & L2); [apply Hb; assumption|apply IHl; assumption].
  - inversion Fu as [|? ? Ne Fl| | | |]; subst. apply shaped_all in Sh. constructor; [exact Ne|]. cbn [leaves] in Lf. clear Fu Ne. induction IH as [|b l Hb IH IHl]; constructor; inversion Sh; subst; inversion Fl; subst; cbn [flat_map] in Lf; apply Forall_app in Lf; destruct Lf as (L1 & L2); [apply Hb; assumption|apply IHl; assumption].
  - inversion Fu as [| |? ? Fl| | |]; subst. apply shaped_all in Sh. constructor. cbn [leaves] in Lf. clear Fu. induction IH as [|b l Hb IH IHl]; constructor; inversion Sh; subst; inversion Fl; subst; cbn [flat_map] in Lf; apply Forall_app in Lf; destruct Lf as (L1 & L2); [apply Hb; assumption|apply IHl; assumption].
  - destruct Sh as (Hn & ->). inversion Lf as [|? ? L _]; subst. constructor; [exact Hn|exact Pn|exact L].
  - inversion Lf as [|? ? L _]; subst. constructor. exact L.
  - inversion Lf as [|? ? L _]; subst. constructor. exact L.
Qed.
Lemma doc_whole (Q : Z -> Prop) src doc : Q 32 -> Q 10 -> Forall Q src -> parse src = Some doc -> Forall (full false) doc -> Forall (MarkdownSpec.blockOk (Forall Q) false) doc.
Proof.
  intros H32 H10 B E Fu. pose proof (leaf_bytes Q src doc H32 H10 B E) as L. pose proof (parse_shaped src doc E) as S. clear E. induction doc as [|b doc IH]; [constructor|]. inversion S; subst. inversion Fu; subst. cbn [flat_map] in L. apply Forall_app in L. constructor; [apply block_whole; try assumption; [constructor|apply L]|apply IH; [assumption|apply L|assumption]].
Qed.
Theorem source_page anchors src doc : Forall is_byte src -> parse src = Some doc -> Forall (full false) doc ->
  exists h e, convertToHTML anchors doc = Some h /\ showsAll (fun _ _ => True) anchors false doc e /\ MarkdownSpec.page h e /\ nest [] e.
Proof. intros B E Fu. apply html_safe. apply (doc_whole is_byte src); [unfold is_byte; lia|unfold is_byte; lia|exact B|exact E|exact Fu]. Qed.
Lemma inl_mono (P P' : list Z -> Prop) : (forall t, P t -> P' t) -> forall e, inlOk P e -> inlOk P' e.
Proof.
  intros M e. induction e as [t|d l IH|t| |l IH|l IH] using inl_ind'; intros H; inversion H as [? H1|? ? H1 H2|? H1| |? H2|? H2]; subst; constructor; auto;
    (clear H; induction IH as [|x l Hx IH IHl]; constructor; inversion H2; subst; [apply Hx; assumption|apply IHl; assumption]).
Qed.
Lemma inls_mono (P P' : list Z -> Prop) l : (forall t, P t -> P' t) -> Forall (inlOk P) l -> Forall (inlOk P') l.
Proof. intros M. apply Forall_impl. apply inl_mono, M. Qed.
Lemma block_mono (P P' : list Z -> Prop) : (forall t, P t -> P' t) -> forall b tight, MarkdownSpec.blockOk P tight b -> MarkdownSpec.blockOk P' tight b.
Proof.
  intros M b.
  assert (Al : forall l t, Forall (fun b => forall tight, MarkdownSpec.blockOk P tight b -> MarkdownSpec.blockOk P' tight b) l -> Forall (MarkdownSpec.blockOk P t) l -> Forall (MarkdownSpec.blockOk P' t) l).
  { intros l t IH H. induction IH as [|x l Hx IH IHl]; constructor; inversion H; subst; [apply Hx; assumption|apply IHl; assumption]. }
  induction b as [s x l IH|l IH|l IH|n id l|l|l] using block_ind'; intros tight H; inversion H as [? ? ? ? H1 H2|? ? H1 H2|? ? H2|? ? ? ? H1 H2 H3|? ? H1|? ? H1]; subst; constructor; auto; try (eapply inls_mono; eassumption).
  revert H1. apply Forall_impl. exact M.
Qed.
Lemma ascii_ok t : Forall (fun c => 0 <= c <= 127) t -> bytes_ok t /\ no_overlong_ascii t.
Proof.
  intros B. split; [eapply Forall_impl; [|exact B]; unfold is_byte; cbn; lia|].
  intros pre l post p E F Hp. assert (Bl : Forall (fun c => 0 <= c <= 127) l) by (rewrite E in B; apply Forall_app in B; destruct B as [_ B]; apply Forall_app in B; apply B).
  destruct F; [reflexivity|..]; exfalso; inversion Bl; subst; lia.
Qed.
Theorem source_page_ascii anchors src doc : Forall (fun c => 0 <= c <= 127) src -> parse src = Some doc -> Forall (full false) doc ->
  exists h e, convertToHTML anchors doc = Some h /\ showsAll eq anchors false doc e /\ MarkdownSpec.page h e /\ nest [] e.
Proof.
  intros B E Fu. apply html_exact. eapply Forall_impl; [intros b; apply (block_mono (Forall (fun c => 0 <= c <= 127))); exact ascii_ok|]. apply (doc_whole _ src); [lia|lia|exact B|exact E|exact Fu].
Qed.
(** The converter fails for all other documents. *)
Lemma html_full anchors b : forall tight h, blockHTML anchors tight b = Some h -> full tight b.
Proof.
  assert (Al : forall l t bs, Forall (fun b => forall tight h, blockHTML anchors tight b = Some h -> full tight b) l -> seqOpt (map (blockHTML anchors t) l) = Some bs -> Forall (full t) l).
  { intros l t bs IH S. apply seqOpt_spec in S. revert bs S. induction IH as [|x l Hx IH IHl]; intros bs S; [constructor|]. cbn [map] in S. inversion S as [|? y ? ys E1 E2]; subst. constructor; [eapply Hx; exact E1|eapply IHl; exact E2]. }
  induction b as [s x l IH|l IH|l IH|n id l|l|l] using block_ind'; intros tight h E; cbn [blockHTML] in E.
  - destruct (seqOpt (map (blockHTML anchors (negb x)) l)) as [bs|] eqn:S; [|discriminate]. constructor. eapply Al; [exact IH|exact S].
  - match type of E with match ?m with Some _ => _ | None => None end = _ => destruct m as [f|] eqn:Fi; [|discriminate E] end. match type of E with match ?m with Some _ => _ | None => None end = _ => destruct m as [body|] eqn:Bo; [|discriminate E] end. clear E.
    constructor; [intros ->; destruct l; [discriminate Fi|discriminate]|]. clear Fi f. revert body Bo. induction IH as [|x l Hx IH IHl]; intros body Bo; [constructor|]. destruct (blockHTML anchors tight x) as [hx|] eqn:Ex; [|discriminate]. match type of Bo with match ?m with Some _ => _ | None => None end = _ => destruct m as [tl|] eqn:Bt; [|discriminate Bo] end. constructor; [eapply Hx; exact Ex|apply (IHl tl); reflexivity].
  - destruct (seqOpt (map (blockHTML anchors false) l)) as [bs|] eqn:S; [|discriminate]. constructor. eapply Al; [exact IH|exact S].
  - constructor.
  - constructor.
  - constructor.
Qed.
Theorem converted_full anchors doc h : convertToHTML anchors doc = Some h -> Forall (full false) doc.
Proof.
  unfold convertToHTML. intros E. destruct (seqOpt (map (blockHTML anchors false) doc)) as [bs|] eqn:S; [|discriminate]. apply seqOpt_spec in S. clear E. revert bs S. induction doc as [|b doc IH]; intros bs S; [constructor|]. cbn [map] in S. inversion S as [|? y ? ys E1 E2]; subst. constructor; [eapply html_full; exact E1|eapply IH; exact E2].
Qed.
(** Whatever the source is: if it has a page, the page is safe; it has none only if an item of a tight list is empty. *)
Theorem source_safe anchors src doc : Forall is_byte src -> parse src = Some doc ->
  (convertToHTML anchors doc = None <-> ~ Forall (full false) doc) /\
  forall h, convertToHTML anchors doc = Some h -> exists e, showsAll (fun _ _ => True) anchors false doc e /\ MarkdownSpec.page h e /\ nest [] e.
Proof.
  intros B E. split.
  - split; [intros N Fu; destruct (source_page anchors src doc B E Fu) as (h & e & H & _); congruence|]. intros N. destruct (convertToHTML anchors doc) as [h|] eqn:H; [|reflexivity]. destruct N. eapply converted_full; exact H.
  - intros h H. pose proof (converted_full _ _ _ H) as Fu. destruct (source_page anchors src doc B E Fu) as (h' & e & H' & R). exists e. rewrite H in H'. injection H' as ->. exact R.
Qed.
Theorem source_exact anchors src doc h : Forall (fun c => 0 <= c <= 127) src -> parse src = Some doc -> convertToHTML anchors doc = Some h ->
  exists e, showsAll eq anchors false doc e /\ MarkdownSpec.page h e /\ nest [] e.
Proof.
  intros B E H. pose proof (converted_full _ _ _ H) as Fu. destruct (source_page_ascii anchors src doc B E Fu) as (h' & e & H' & R). exists e. rewrite H in H'. injection H' as ->. exact R.
Qed.
