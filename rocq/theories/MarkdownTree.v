(* Proofs about the tree of the blocks of a Markdown document: every block is in it once, with all its text. *)
From Coq Require Import Lia ZifyBool ZifyNat String Permutation.
From Verif Require Import MarkdownBlockSpec MarkdownProofs MarkdownBlocks.
Local Open Scope list_scope.
Local Notation length := List.length.
Local Notation "'do' p <- m ; k" := (match m with Some p => k | None => None end) (at level 200, p pattern, m at level 100, k at level 200).

(* ---- the text of a block ---- *)
Lemma textsOf_app i a b : textsOf i (a ++ b) = textsOf i a ++ textsOf i b. Proof. apply flat_map_app. Qed.
Lemma codeOf_app i a b : codeOf i (a ++ b) = codeOf i a ++ codeOf i b. Proof. apply flat_map_app. Qed.
Definition fits (es : list entry) (i : nat) (x : ntype * list (list Z)) : Prop :=
  match fst x with
  | CodeBlock => textsOf i es = [] /\ codeOf i es <> [] /\ spread (snd x) (codeOf i es)
  | Paragraph | Heading => codeOf i es = [] /\ snd x = textsOf i es
  | _ => textsOf i es = [] /\ codeOf i es = []
  end.
Definition contents (v : V) (es : list entry) : Prop :=
  (forall i x, nth_error v i = Some x -> fits es i x) /\ (forall i, (length v <= i)%nat -> textsOf i es = [] /\ codeOf i es = []).
Lemma fits_other es e i x : target e <> Some i -> fits es i x -> fits (es ++ [e]) i x.
Proof.
  intros T. assert (E : textsOf i [e] = [] /\ codeOf i [e] = []).
  { destruct e as [|j t|j t]; cbn in *; [auto| |]; (destruct (Nat.eqb_spec j i); [subst; congruence|auto]). }
  destruct E as (E1 & E2). unfold fits. rewrite textsOf_app, codeOf_app, E1, E2, !app_nil_r. auto.
Qed.
Lemma none_other es e i : target e <> Some i -> textsOf i es = [] /\ codeOf i es = [] -> textsOf i (es ++ [e]) = [] /\ codeOf i (es ++ [e]) = [].
Proof. intros T H. exact (fits_other es e i (Document, []) T H). Qed.
Lemma contents_grow v es v' : contents v es -> grows v v' -> contents v' es.
Proof.
  intros (A & B) (ts & -> & N). split.
  - intros i x E. destruct (Nat.ltb_spec i (length v)) as [L|L]; [rewrite nth_error_app1 in E by exact L; apply A, E|]. rewrite nth_error_app2 in E by exact L. apply nth_error_In in E. apply in_map_iff in E. destruct E as (t & <- & It). destruct (B i L) as (B1 & B2). unfold fits. cbn [fst snd]. rewrite B1, B2. destruct t; auto. contradiction.
  - intros i L. rewrite app_length in L. apply B. lia.
Qed.
Lemma contents_put c v es i t v' : contents v es -> puts c v i t v' -> contents v' (es ++ [if c then Code i t else Put i t]) /\ (i < length v')%nat.
Proof.
  intros (A & B) P. assert (T : target (if c then Code i t else Put i t) = Some i) by (destruct c; reflexivity).
  assert (T1 : textsOf i [if c then Code i t else Put i t] = if c then [] else [t]) by (destruct c; cbn; rewrite ?Nat.eqb_refl; reflexivity).
  assert (T2 : codeOf i [if c then Code i t else Put i t] = if c then [t] else []) by (destruct c; cbn; rewrite ?Nat.eqb_refl; reflexivity).
  destruct P as [(v1 & ty & r & v2 & b & -> & <- & -> & K)|(ty & -> & -> & K)].
  - split; [|rewrite app_length; cbn; lia]. split.
    + intros j x E. destruct (Nat.eq_dec j (length v1)) as [->|N].
      * rewrite nth_error_app2, Nat.sub_diag in E by lia. injection E as <-. specialize (A (length v1) (ty, r)). rewrite nth_error_app2, Nat.sub_diag in A by lia. specialize (A eq_refl). unfold fits in *. rewrite textsOf_app, codeOf_app, T1, T2. cbn [fst snd] in *. destruct c; cbn [kind] in K.
        -- subst ty. destruct A as (A1 & A2 & A3). rewrite A1. split; [reflexivity|]. split; [destruct (codeOf (length v1) es); discriminate|]. constructor. exact A3.
        -- destruct K as ([->| ->] & ->); destruct A as (A1 & A2); rewrite A1, A2; auto.
      * apply fits_other; [rewrite T; congruence|]. apply A. destruct (Nat.lt_ge_cases j (length v1)) as [L|L]; [rewrite nth_error_app1 in * by exact L; exact E|]. rewrite nth_error_app2 in * by lia. destruct (j - length v1)%nat eqn:D; [lia|exact E].
    + intros j L. apply none_other; [rewrite T; intros X; injection X as X; rewrite app_length in L; cbn in L; lia|]. apply B. rewrite app_length in *. cbn [length] in *. lia.
  - split; [|rewrite app_length; cbn; lia]. split.
    + intros j x E. destruct (Nat.ltb_spec j (length v)) as [L|L].
      * apply fits_other; [rewrite T; intros X; injection X as X; lia|]. apply A. rewrite nth_error_app1 in E by exact L. exact E.
      * rewrite nth_error_app2 in E by exact L. destruct (j - length v)%nat eqn:D; [|destruct n; discriminate E]. injection E as <-. assert (j = length v) as -> by lia. destruct (B (length v) (le_n _)) as (B1 & B2). unfold fits. rewrite textsOf_app, codeOf_app, T1, T2, B1, B2. cbn [fst snd]. destruct c; cbn [kind] in K.
        -- subst ty. split; [reflexivity|]. split; [discriminate|]. change ([t]) with ([] ++ repeat [10] 0 ++ [t]) at 1. constructor. constructor.
        -- destruct K as ([->| ->] & _); auto.
    + intros j L. apply none_other; [rewrite T; intros X; injection X as X; rewrite app_length in L; cbn in L; lia|]. apply B. rewrite app_length in L. lia.
Qed.
Lemma contents_does v es e v' : contents v es -> does v e v' -> contents v' (es ++ [e]) /\ (forall i, target e = Some i -> (i < length v')%nat) /\ (length v <= length v')%nat.
Proof.
  intros C D. destruct e as [|i t|i t]; cbn [does] in D.
  - pose proof (contents_grow v es v' C D) as (A & B). split; [|split; [discriminate|apply grows_length, D]]. split; [intros j x E; apply fits_other; [discriminate|apply A, E]|intros j L; apply none_other; [discriminate|apply B, L]].
  - destruct D as (v1 & G & P). pose proof (grows_length _ _ G). destruct (contents_put false v1 es i t v' (contents_grow _ _ _ C G) P) as (X & Y). split; [exact X|]. split; [intros j Ej; injection Ej as <-; exact Y|]. destruct P as [(? & ? & ? & ? & ? & -> & _ & -> & _)|(? & _ & -> & _)]; rewrite !app_length in *; cbn [length] in *; lia.
  - destruct D as (v1 & G & P). pose proof (grows_length _ _ G). destruct (contents_put true v1 es i t v' (contents_grow _ _ _ C G) P) as (X & Y). split; [exact X|]. split; [intros j Ej; injection Ej as <-; exact Y|]. destruct P as [(? & ? & ? & ? & ? & -> & _ & -> & _)|(? & _ & -> & _)]; rewrite !app_length in *; cbn [length] in *; lia.
Qed.
Lemma contents_all es : forall v es0 v', contents v es0 -> doesAll v es v' -> contents v' (es0 ++ es) /\ (forall e i, In e es -> target e = Some i -> (i < length v')%nat) /\ (length v <= length v')%nat.
Proof.
  induction es as [|e es IH]; intros v es0 v' C D; cbn [doesAll] in D; [subst; rewrite app_nil_r; split; [exact C|]; split; [intros e i []|reflexivity]|]. destruct D as (v1 & D1 & D2). destruct (contents_does _ _ _ _ C D1) as (C1 & T1 & L1). destruct (IH _ _ _ C1 D2) as (C2 & T2 & L2).
  rewrite <- app_assoc in C2. split; [exact C2|]. split; [|lia]. intros e' i [<-|I] T; [specialize (T1 i T); lia|eapply T2; eassumption].
Qed.

(** Texts of paragraphs have no newline. *)
Lemma text_no10 line i t : (~ In 10 line \/ exists x, line = x ++ [10] /\ ~ In 10 x) -> entryOf line (Put i t) -> lineOk t.
Proof.
  intros H E. inversion E as [|? m t' w Ht Hm Hw| |]; subst. destruct Ht as (c & d & H1 & H2 & _ & Hd). split; [destruct t; discriminate|]. intros I. destruct (hd_rev_snoc _ _ H2) as (t1 & ->).
  assert (Nd : d <> 10) by (intros ->; apply Hd; unfold white; auto). apply in_app_iff in I. destruct I as [I|[->|[]]]; [|contradiction]. destruct H as [H|(x & Ex & Hx)].
  - apply H. rewrite !in_app_iff. auto.
  - apply Hx. destruct w as [|w0 w1].
    + rewrite app_nil_r, app_assoc in Ex. apply app_inj_tail in Ex. destruct Ex as (_ & ->). contradiction.
    + destruct (last_ex (w0 :: w1) ltac:(discriminate)) as (w2 & y & Ew). rewrite Ew, !app_assoc in Ex. apply app_inj_tail in Ex. destruct Ex as (<- & _). rewrite !in_app_iff. auto.
Qed.
Lemma lines_no10 src ls : linesOf src ls -> Forall (fun l => ~ In 10 l \/ exists x, l = x ++ [10] /\ ~ In 10 x) ls.
Proof. induction 1; constructor; eauto. Qed.
Lemma texts_ok ls es : Forall (fun l => ~ In 10 l \/ exists x, l = x ++ [10] /\ ~ In 10 x) ls -> Forall2 entryOf ls es -> forall i, Forall lineOk (textsOf i es).
Proof.
  intros H F i. induction F as [|l e ls es E F IH]; [constructor|]. inversion H; subst. cbn [textsOf flat_map]. apply Forall_app. split; [|apply IH; assumption]. destruct e as [|j t|j t]; try constructor. destruct (j =? i)%nat; constructor; [|constructor]. eapply text_no10; eassumption.
Qed.

(* ---- the tree ---- *)
Definition kidsOf (ns : list node) (x : nat) : list nat :=
  filter (fun j => match nth_error ns j with Some n => (parent n =? x)%nat | None => false end) (seq 1 (length ns - 1)).
Definition isText (t : ntype) : bool := match t with Heading | Paragraph | CodeBlock => true | _ => false end.
Definition tree (ns : list node) : Prop :=
  (0 < length ns)%nat /\
  (forall x n, nth_error ns x = Some n -> kids n = kidsOf ns x) /\
  (forall j n, nth_error ns j = Some n -> (0 < j)%nat -> (parent n < j)%nat) /\
  (forall x n, nth_error ns x = Some n -> isText (type n) = true -> kids n = []).
Lemma upd_length f ns : forall i, length (upd i f ns) = length ns.
Proof. induction ns as [|n ns IH]; intros [|i]; cbn [upd length]; auto. Qed.
Lemma nth_upd f ns : forall i j, nth_error (upd i f ns) j = if (i =? j)%nat then option_map f (nth_error ns j) else nth_error ns j.
Proof. induction ns as [|n ns IH]; intros [|i] [|j]; cbn [upd nth_error Nat.eqb option_map]; try reflexivity; [destruct (i =? j)%nat; reflexivity|apply IH]. Qed.
Definition sameTree (f : node -> node) : Prop := forall n, type (f n) = type n /\ parent (f n) = parent n /\ kids (f n) = kids n.
Lemma kidsOf_ext ns ns' x : length ns' = length ns -> (forall j, option_map parent (nth_error ns' j) = option_map parent (nth_error ns j)) -> kidsOf ns' x = kidsOf ns x.
Proof. intros L H. unfold kidsOf. rewrite L. apply filter_ext. intros j. specialize (H j). destruct (nth_error ns' j), (nth_error ns j); cbn in H; try discriminate H; [injection H as ->|]; reflexivity. Qed.
Lemma tree_ext ns ns' : length ns' = length ns -> (forall j, option_map (fun n => (type n, parent n, kids n)) (nth_error ns' j) = option_map (fun n => (type n, parent n, kids n)) (nth_error ns j)) -> tree ns -> tree ns'.
Proof.
  intros L H (T0 & T1 & T2 & T3).
  assert (B : forall j n', nth_error ns' j = Some n' -> exists n, nth_error ns j = Some n /\ type n' = type n /\ parent n' = parent n /\ kids n' = kids n).
  { intros j n' E. specialize (H j). rewrite E in H. destruct (nth_error ns j) as [n|]; [|discriminate H]. cbn in H. injection H as A1 A2 A3. exists n. auto. }
  split; [lia|]. split; [|split].
  - intros x n' E. destruct (B x n' E) as (n & En & _ & _ & K). rewrite K, (T1 x n En). symmetry. apply kidsOf_ext; [exact L|]. intros j. specialize (H j). destruct (nth_error ns' j), (nth_error ns j); cbn in *; congruence.
  - intros j n' E P. destruct (B j n' E) as (n & En & _ & Q & _). rewrite Q. eapply T2; eassumption.
  - intros x n' E P. destruct (B x n' E) as (n & En & Q & _ & K). rewrite K. eapply T3; [exact En|congruence].
Qed.
Lemma tree_upd f ns i : sameTree f -> tree ns -> tree (upd i f ns).
Proof. intros K. apply tree_ext; [apply upd_length|]. intros j. rewrite nth_upd. destruct (i =? j)%nat; [|reflexivity]. destruct (nth_error ns j) as [n|]; [|reflexivity]. cbn. destruct (K n) as (-> & -> & ->). reflexivity. Qed.
Lemma make_length ns n i ns' : make ns n = (i, ns') -> length ns' = S (length ns) /\ i = length ns.
Proof. intros E. injection E as <- <-. rewrite app_length, upd_length. cbn. split; [lia|reflexivity]. Qed.
Lemma make_nth ns n i ns' j : make ns n = (i, ns') -> nth_error ns' j = if (j =? length ns)%nat then Some n else if (parent n =? j)%nat then option_map (addKid (length ns)) (nth_error ns j) else nth_error ns j.
Proof.
  intros E. injection E as <- <-. destruct (Nat.eqb_spec j (length ns)) as [->|N]; [rewrite nth_error_app2, upd_length, Nat.sub_diag by (rewrite upd_length; lia); reflexivity|]. destruct (Nat.lt_ge_cases j (length ns)) as [L|L].
  - rewrite nth_error_app1 by (rewrite upd_length; lia). apply nth_upd.
  - rewrite nth_error_app2 by (rewrite upd_length; lia). rewrite upd_length. rewrite (proj2 (nth_error_None ns j)) by lia. destruct (j - length ns)%nat as [|[|d]] eqn:D; [lia| |]; destruct (parent n =? j)%nat; reflexivity.
Qed.
Lemma tree_make ns n i ns' pn : make ns n = (i, ns') -> kids n = [] -> nth_error ns (parent n) = Some pn -> isText (type pn) = false -> tree ns -> tree ns'.
Proof.
  intros M Kn Pn Tp (T0 & T1 & T2 & T3). destruct (make_length _ _ _ _ M) as (L & _). assert (Lp : (parent n < length ns)%nat) by (apply nth_error_Some; congruence).
  assert (Par : forall j, (1 <= j < length ns)%nat -> option_map parent (nth_error ns' j) = option_map parent (nth_error ns j)).
  { intros j Hj. rewrite (make_nth _ _ _ _ j M). replace (j =? length ns)%nat with false by lia. destruct (parent n =? j)%nat; [|reflexivity]. destruct (nth_error ns j); reflexivity. }
  assert (KO : forall x, kidsOf ns' x = kidsOf ns x ++ if (parent n =? x)%nat then [length ns] else []).
  { intros x. unfold kidsOf. rewrite L. replace (S (length ns) - 1)%nat with (S (length ns - 1)) by lia. rewrite seq_S, filter_app. f_equal.
    - apply filter_ext_in. intros j Hj. apply in_seq in Hj. specialize (Par j ltac:(lia)). destruct (nth_error ns' j), (nth_error ns j); cbn in Par; try discriminate Par; [injection Par as ->|]; reflexivity.
    - replace (1 + (length ns - 1))%nat with (length ns) by lia. cbn [filter]. rewrite (make_nth _ _ _ _ (length ns) M), Nat.eqb_refl. reflexivity. }
  split; [lia|]. split; [|split].
  - intros x m E. rewrite KO. rewrite (make_nth _ _ _ _ x M) in E. destruct (Nat.eqb_spec x (length ns)) as [->|Nx].
    + injection E as <-. rewrite Kn. replace (parent n =? length ns)%nat with false by lia. rewrite app_nil_r. symmetry. unfold kidsOf.
      assert (F : forall l, (forall j, In j l -> (1 <= j < length ns)%nat) -> filter (fun j => match nth_error ns j with Some n0 => (parent n0 =? length ns)%nat | None => false end) l = []).
      { induction l as [|j l IH]; intros H; [reflexivity|]. cbn [filter]. rewrite IH by (intros y Hy; apply H; right; exact Hy). specialize (H j (or_introl eq_refl)). destruct (nth_error ns j) as [q|] eqn:Q; [|reflexivity]. specialize (T2 j q Q ltac:(lia)). replace (parent q =? length ns)%nat with false by lia. reflexivity. }
      apply F. intros j Hj. apply in_seq in Hj. lia.
    + destruct (Nat.eqb_spec (parent n) x) as [<-|N2].
      * rewrite Pn in E. injection E as <-. cbn [kids addKid]. rewrite (T1 _ _ Pn). reflexivity.
      * rewrite app_nil_r. apply T1, E.
  - intros j m E Pj. rewrite (make_nth _ _ _ _ j M) in E. destruct (Nat.eqb_spec j (length ns)) as [->|Nj]; [injection E as <-; exact Lp|]. destruct (parent n =? j)%nat; [|eapply T2; eassumption]. destruct (nth_error ns j) as [q|] eqn:Q; [|discriminate]. injection E as <-. cbn. eapply T2; eassumption.
  - intros x m E Tx. rewrite (make_nth _ _ _ _ x M) in E. destruct (Nat.eqb_spec x (length ns)) as [->|Nx]; [injection E as <-; exact Kn|]. destruct (Nat.eqb_spec (parent n) x) as [<-|N2]; [|eapply T3; eassumption]. rewrite Pn in E. injection E as <-. cbn in Tx. congruence.
Qed.

(* ---- the parser keeps the tree ---- *)
Definition inner (ns : list node) (i : nat) : Prop := exists n, nth_error ns i = Some n /\ isText (type n) = false.
Definition good (p : parser) : Prop := tree (nodes p) /\ Forall (inner (nodes p)) (blockNodes p).
Definition more (ns ns' : list node) : Prop := forall i, inner ns i -> inner ns' i.
Lemma more_upd f ns i : (forall n, type (f n) = type n) -> more ns (upd i f ns).
Proof. intros K j (n & E & T). unfold inner. rewrite nth_upd. destruct (i =? j)%nat; [rewrite E; exists (f n); rewrite K; auto|exists n; auto]. Qed.
Lemma more_make ns n i ns' : make ns n = (i, ns') -> more ns ns'.
Proof.
  intros M j (m & E & T). unfold inner. rewrite (make_nth _ _ _ _ j M). assert (j < length ns)%nat by (apply nth_error_Some; congruence). replace (j =? length ns)%nat with false by lia. destruct (parent n =? j)%nat; [rewrite E; exists (addKid (length ns) m); auto|exists m; auto].
Qed.
Lemma make_inner ns n i ns' : make ns n = (i, ns') -> isText (type n) = false -> inner ns' i.
Proof. intros M T. destruct (make_length _ _ _ _ M) as (_ & ->). exists n. rewrite (make_nth _ _ _ _ (length ns) M), Nat.eqb_refl. auto. Qed.
Lemma good_more p ns' sb lf nb cc : good p -> tree ns' -> more (nodes p) ns' -> sb = blockNodes p -> good (mkp ns' sb lf nb cc).
Proof. intros (A & B) T M ->. split; [exact T|]. cbn. revert B. apply Forall_impl. exact M. Qed.
Lemma good_same p lf nb cc : good p -> good (mkp (nodes p) (blockNodes p) lf nb cc).
Proof. intros H. exact H. Qed.
Lemma good_cut p keep : good p -> good (cutStack p keep).
Proof. intros (A & B). unfold cutStack. destruct (_ <? _)%nat; [|split; assumption]. split; [exact A|]. cbn. rewrite <- (firstn_skipn keep (blockNodes p)) in B. apply Forall_app in B. apply B. Qed.
Lemma good_code p i line from p' : good p -> addCode p i line from = Some p' -> good p'.
Proof.
  intros G E. unfold addCode in E. destruct (extractCodeLine line from); [|discriminate]. injection E as <-. apply good_more with (p := p); [exact G| | |reflexivity]; [apply tree_upd; [intros n; repeat split|apply G]|apply more_upd; reflexivity].
Qed.
Lemma markLists_good f (Hf : forall l l', f l = Some l' -> type l' = type l /\ parent l' = parent l /\ kids l' = kids l) stack : forall ns ns' b, tree ns -> markLists f ns stack = Some (ns', b) -> tree ns' /\ more ns ns'.
Proof.
  induction stack as [|i stack IH]; intros ns ns' b T E; cbn [markLists] in E; [injection E as <- _; split; [exact T|intros j H; exact H]|].
  destruct (nth_error ns i) as [n|]; [|discriminate]. destruct (type n); try (eapply IH; eassumption). destruct (nth_error ns (parent n)) as [l|] eqn:N; [|discriminate]. destruct (type l) eqn:Tl; try discriminate E.
  destruct (f l) as [l'|] eqn:Fl; [|eapply IH; eassumption]. destruct (markLists f (upd (parent n) (fun _ => l') ns) stack) as [[ns2 b2]|] eqn:M; [|discriminate]. injection E as <- _. destruct (Hf _ _ Fl) as (H1 & H2 & H3).
  assert (T1 : tree (upd (parent n) (fun _ => l') ns)).
  { apply tree_ext with (ns := ns); [apply upd_length| |exact T]. intros j. rewrite nth_upd. destruct (Nat.eqb_spec (parent n) j) as [<-|]; [rewrite N; cbn; rewrite H1, H2, H3; reflexivity|reflexivity]. }
  destruct (IH _ _ _ T1 M) as (A & B).
  split; [exact A|]. intros j Hj. apply B. destruct Hj as (m & Em & Tm). unfold inner. rewrite nth_upd. destruct (Nat.eqb_spec (parent n) j) as [<-|]; [|exists m; auto]. rewrite Em. cbn. exists l'. split; [reflexivity|]. rewrite H1. congruence.
Qed.
Lemma may_tree l l' : mayBeLoose l = Some l' -> type l' = type l /\ parent l' = parent l /\ kids l' = kids l.
Proof. unfold mayBeLoose. destruct (isLoose l); [discriminate|]. intros E. injection E as <-. repeat split. Qed.
Lemma now_tree l l' : nowLoose l = Some l' -> type l' = type l /\ parent l' = parent l /\ kids l' = kids l.
Proof. unfold nowLoose. destruct (isLooseIfContinued l); [|discriminate]. intros E. injection E as <-. repeat split. Qed.
Lemma match_good p line p' k : good p -> matchExistingIndentation p line = Some (p', k) -> good p'.
Proof.
  intros G E. unfold matchExistingIndentation in E. destruct (matchLoop (nodes p) (skipn 1 (blockNodes p)) 1 (mklc line 0 0)) as [[keep k0]|]; [|discriminate]. destruct (trim (rest k0)); [|injection E as <- _; apply good_cut, G].
  match type of E with match ?m with Some _ => _ | None => None end = _ => destruct m as [p1|] eqn:P1; [|discriminate E] end.
  assert (G1 : good p1) by (destruct (isLeaf p Paragraph); [destruct (numBlank p =? 0)%nat; [|discriminate]|]; injection P1 as <-; exact G). destruct (keepItems (nodes p1) (skipn keep (blockNodes p1)) keep) as [keep2|]; [|discriminate].
  pose proof (good_cut p1 keep2 G1) as G2. set (p2 := cutStack p1 keep2) in *. clearbody p2. destruct (leafNode p2) as [i|].
  - destruct (isLeaf p2 CodeBlock); [|discriminate]. destruct (innerIndent k0) as [x|]; [|discriminate]. destruct (4 <? x)%nat; [|injection E as <- _; exact G2]. destruct (addCode p2 i line (outerIndent k0 + 4)) as [p3|] eqn:A; [|discriminate]. injection E as <- _. eapply good_code; eassumption.
  - destruct (markLists mayBeLoose (nodes p2) (blockNodes p2)) as [[ns any]|] eqn:M; [|discriminate]. injection E as <- _. destruct (markLists_good _ may_tree _ _ _ _ (proj1 G2) M) as (T & Mo). apply good_more with (p := p2); auto.
Qed.
Lemma stack_top p top : good p -> hd_error (rev (blockNodes p)) = Some top -> inner (nodes p) top.
Proof. intros (_ & G) E. rewrite Forall_forall in G. apply G. apply in_rev. destruct (rev (blockNodes p)); [discriminate|]. injection E as ->. left. reflexivity. Qed.
(** A new inner block becomes the top of the stack. *)
Lemma good_push p ns n i ns' lf nb cc : tree ns -> more (nodes p) ns -> Forall (inner (nodes p)) (blockNodes p) -> make ns n = (i, ns') -> kids n = [] -> inner ns (parent n) -> isText (type n) = false -> good (mkp ns' (blockNodes p ++ [i]) lf nb cc).
Proof.
  intros T Mo S M K (pn & Pn & Tp) Tn. split; cbn [nodes blockNodes]; [eapply tree_make; eassumption|]. apply Forall_app. split; [|constructor; [eapply make_inner; eassumption|constructor]]. revert S. apply Forall_impl. intros j Hj. apply (more_make _ _ _ _ M), Mo, Hj.
Qed.
Lemma got_good p level num punc p' : good p -> gotListMarker p level num punc = Some p' -> good p'.
Proof.
  intros G E. unfold gotListMarker in E. destruct (hd_error (rev (blockNodes p))) as [top|] eqn:Tp; [|discriminate]. pose proof (stack_top p top G Tp) as It. destruct (nth_error (nodes p) top) as [ctr|] eqn:Ct; [|discriminate].
  assert (E' : exists l pc, (let (listNode, ns) := match l with Some l => (l, nodes p) | None => make (nodes p) (mkn List_ pc 0 num punc false false [] []) end in
    let (item, ns) := make ns (mkn ListItem listNode level 0 45 false false [] []) in Some (mkp ns (blockNodes p ++ [item]) None 0 (checkCont p))) = Some p' /\ inner (nodes p) pc /\ (forall x, l = Some x -> inner (nodes p) x)).
  {
    assert (Xok : forall last l pc, (do l <- nth_error (nodes p) last; Some (if ntype_eqb (type l) List_ && Bool.eqb (isOrderedList l) (0 <=? num) && (listPunc l =? punc) then Some last else None, top)) = Some (l, pc) -> inner (nodes p) pc /\ forall x, l = Some x -> inner (nodes p) x).
    { intros last l pc H. destruct (nth_error (nodes p) last) as [q|] eqn:Q1; [|discriminate]. injection H as <- <-. split; [exact It|]. intros x Hx. destruct (ntype_eqb (type q) List_) eqn:TQ; [|discriminate]. destruct (_ && _); [|discriminate]. injection Hx as <-. exists q. split; [exact Q1|]. destruct (type q); try discriminate TQ; reflexivity. }
    destruct (type ctr) eqn:Tc; try discriminate E;
      (destruct (rev (kids ctr)) as [|last others];
       [|destruct (nth_error (nodes p) last) as [q|] eqn:Q1; [|discriminate E]; remember (if ntype_eqb (type q) List_ && Bool.eqb (isOrderedList q) (0 <=? num) && (listPunc q =? punc) then Some last else None) as a eqn:Ea in E; exists a, top; (split; [exact E|apply (Xok last a top); rewrite Q1, Ea; reflexivity])]).
    - exists None, top. split; [exact E|]. split; [exact It|discriminate].
    - exists None, top. split; [exact E|]. split; [exact It|discriminate].
    - destruct (typeOf (nodes p) (parent ctr)) as [t|] eqn:Pt; [|discriminate E]. destruct t; try discriminate E. exists None, (parent ctr). split; [exact E|]. split; [|discriminate]. unfold typeOf in Pt. destruct (nth_error (nodes p) (parent ctr)) as [q|] eqn:Q1; [|discriminate Pt]. injection Pt as Pt. exists q. rewrite Pt. auto.
    - exists None, top. split; [exact E|]. split; [exact It|discriminate]. }
  destruct E' as (l & pc & E1 & Ip & Il). clear E. destruct G as (G1 & G2). destruct l as [l|].
  - destruct (make (nodes p) (mkn ListItem l level 0 45 false false [] [])) as [item ns2] eqn:M. injection E1 as <-. eapply good_push; [exact G1|intros j H; exact H|exact G2|exact M|reflexivity|apply Il; reflexivity|reflexivity].
  - destruct (make (nodes p) (mkn List_ pc 0 num punc false false [] [])) as [ln ns1] eqn:M1. destruct (make ns1 (mkn ListItem ln level 0 45 false false [] [])) as [item ns2] eqn:M. injection E1 as <-. destruct Ip as (pn & Pn & Tpn).
    eapply good_push; [eapply tree_make; [exact M1|reflexivity|exact Pn|exact Tpn|exact G1]|eapply more_make; exact M1|exact G2|exact M|reflexivity|eapply make_inner; [exact M1|reflexivity]|reflexivity].
Qed.
Lemma one_good p k p' k' : good p -> oneMarker p k = Some (Some (p', k')) -> good p'.
Proof.
  intros G E. unfold oneMarker in E. destruct (rest k) as [|c r]; [discriminate|]. destruct (isWhite c); [discriminate|]. destruct (c =? 62).
  - destruct (hd_error (rev (blockNodes p))) as [top|] eqn:Tp; [|discriminate]. destruct (make (nodes p) (newNode top BlockQuote)) as [q ns] eqn:M. injection E as <- _. pose proof (stack_top p top G Tp) as It. destruct G as (G1 & G2). eapply good_push; [exact G1|intros j H; exact H|exact G2|exact M|reflexivity|exact It|reflexivity].
  - destruct ((c =? 42) || (c =? 45) || (c =? 43)).
    + destruct (afterMarker p r (outerIndent k) (S (indent k))) as [k1|]; [|discriminate]. destruct (gotListMarker p (outerIndent k1) (-1) c) as [p1|] eqn:Gt; [|discriminate]. injection E as <- _. eapply got_good; eassumption.
    + destruct (isDecimalDigit c); [|discriminate]. destruct (parse_u64 (c :: r) 10) as [num|]; [|discriminate]. match type of E with (if ?b then _ else _) = _ => destruct b; [discriminate E|] end. destruct (prest num) as [|punc [|x r2]]; try discriminate E. destruct ((punc =? 46) || (punc =? 41)); [|discriminate].
      match type of E with match ?m with Some _ => _ | None => _ end = _ => destruct m as [k1|]; [|discriminate E] end. destruct (gotListMarker p (outerIndent k1) (pval num) punc) as [p1|] eqn:Gt; [|discriminate]. injection E as <- _. eapply got_good; eassumption.
Qed.
Lemma markers_good fuel : forall p k p' k', good p -> parseNewMarkers fuel p k = Some (p', k') -> good p'.
Proof.
  induction fuel as [|fuel IH]; intros p k p' k' G E; cbn [parseNewMarkers] in E; [discriminate|]. destruct (rest k); [injection E as <- _; exact G|]. destruct (innerIndent k) as [x|]; [|discriminate]. destruct (4 <=? x)%nat; [injection E as <- _; exact G|].
  destruct (oneMarker p k) as [[[p1 k1]|]|] eqn:M; [|injection E as <- _; exact G|discriminate]. eapply IH; [eapply one_good; eassumption|exact E].
Qed.
(** A new block that is not put on the stack. *)
Lemma good_add p n i ns' lf nb cc : good p -> make (nodes p) n = (i, ns') -> kids n = [] -> inner (nodes p) (parent n) -> good (mkp ns' (blockNodes p) lf nb cc).
Proof. intros G M K (pn & Pn & Tp). apply good_more with (p := p); [exact G|eapply tree_make; [exact M|exact K|exact Pn|exact Tp|apply G]|eapply more_make; exact M|reflexivity]. Qed.
Lemma para_good p line k p' : good p -> parseParagraphText p line k = Some p' -> good p'.
Proof.
  intros G E. unfold parseParagraphText in E. destruct (innerIndent k) as [x|]; [|discriminate]. destruct (hd_error (rev (blockNodes p))) as [top|] eqn:Tp; [|discriminate]. pose proof (stack_top p top G Tp) as It. destruct (negb (isLeaf p Paragraph) && (4 <=? x)%nat).
  - match type of E with match ?m with Some _ => _ | None => None end = _ => destruct m as [p1|] eqn:P1; [|discriminate E] end.
    assert (G1 : good p1).
    { destruct (trim (rest k)); [injection P1 as <-; exact G|]. destruct (leafNode p); [injection P1 as <-; exact G|]. destruct (numBlank p =? 0)%nat; [|discriminate]. destruct (make (nodes p) (newNode top CodeBlock)) as [i ns] eqn:M. injection P1 as <-. eapply good_add; [exact G|exact M|reflexivity|exact It]. }
    destruct (leafNode p1) as [i|]; [|injection E as <-; exact G1]. destruct (isLeaf p1 CodeBlock); [|discriminate]. eapply good_code; eassumption.
  - destruct (trim (rest k)) as [|t0 t]; [destruct (leafNode p); [discriminate|]; injection E as <-; exact G|].
    match type of E with match ?m with Some _ => _ | None => None end = _ => destruct m as [p1|] eqn:P1; [|discriminate E] end.
    assert (G1 : good p1 /\ inner (nodes p1) top).
    { destruct (checkCont p); [|injection P1 as <-; auto]. destruct (leafNode p); [discriminate|]. destruct (markLists nowLoose (nodes p) (blockNodes p)) as [[ns b]|] eqn:M; [|discriminate]. injection P1 as <-. destruct (markLists_good _ now_tree _ _ _ _ (proj1 G) M) as (T & Mo). split; [apply good_more with (p := p); auto|apply Mo, It]. }
    destruct G1 as (G1 & I1).
    assert (Para : (if isLeaf p Paragraph then do i <- leafNode p1; Some (mkp (upd i (addRaw [t0 :: t]) (nodes p1)) (blockNodes p1) (leafNode p1) (numBlank p1) (checkCont p1))
        else let (i, ns) := make (nodes p1) (addRaw [t0 :: t] (newNode top Paragraph)) in Some (mkp ns (blockNodes p1) (Some i) 0 (checkCont p1))) = Some p' -> good p').
    { intros Ep. destruct (isLeaf p Paragraph).
      - destruct (leafNode p1) as [i|]; [|discriminate]. injection Ep as <-. apply good_more with (p := p1); [exact G1| | |reflexivity]; [apply tree_upd; [intros n; repeat split|apply G1]|apply more_upd; reflexivity].
      - destruct (make (nodes p1) (addRaw [t0 :: t] (newNode top Paragraph))) as [i ns] eqn:M. injection Ep as <-. eapply good_add; [exact G1|exact M|reflexivity|exact I1]. }
    destruct (rest k) as [|c r]; [discriminate|]. destruct ((c =? 35) && _); [|apply Para, E]. destruct (heading (c :: r)) as [[level r2]|]; [|apply Para, E].
    match type of E with (let (_, _) := make ?a ?b in _) = _ => destruct (make a b) as [i ns] eqn:M end. injection E as <-. eapply good_add; [exact G1|exact M|reflexivity|exact I1].
Qed.
Lemma line_good p line p' : good p -> parseLine p line = Some p' -> good p'.
Proof.
  intros G E. unfold parseLine in E. destruct (matchExistingIndentation p line) as [[p1 k]|] eqn:M; [|discriminate]. pose proof (match_good _ _ _ _ G M) as G1. destruct k as [k|]; [|injection E as <-; exact G1].
  destruct (parseNewMarkers (S (length (rest k))) p1 k) as [[p2 k2]|] eqn:N; [|discriminate]. eapply para_good; [eapply markers_good; [exact G1|exact N]|exact E].
Qed.
Lemma lines_good fuel : forall p src p', good p -> parseLines fuel p src = Some p' -> good p'.
Proof. induction fuel as [|fuel IH]; intros p src p' G E; cbn [parseLines] in E; [discriminate|]. destruct (readLine src) as [[|c line] src2]; [injection E as <-; exact G|]. destruct (parseLine p (c :: line)) as [p1|] eqn:P; [|discriminate]. eapply IH; [eapply line_good; eassumption|exact E]. Qed.

(* ---- every block is in the document once ---- *)
Inductive rose := Rn (i : nat) (l : list rose).
Definition root (t : rose) : nat := match t with Rn i _ => i end.
Fixpoint labels (t : rose) : list nat := match t with Rn i l => i :: flat_map labels l end.
Section Rose.
Context (ns : list node).
Fixpoint wf (t : rose) : Prop :=
  match t with Rn i l => kidsOf ns i = map root l /\ fold_right (fun t P => wf t /\ P) True l end.
Lemma rose_ind' (P : rose -> Prop) : (forall i l, Forall P l -> P (Rn i l)) -> forall t, P t.
Proof. intros H. fix F 1. intros [i l]. apply H. induction l as [|t l IH]; constructor; [apply F|exact IH]. Qed.
Lemma wf_all l : fold_right (fun t P => wf t /\ P) True l <-> Forall wf l.
Proof. induction l as [|t l IH]; cbn; [split; constructor|]. rewrite IH. split; [intros (A & B); constructor; assumption|intros H; inversion H; auto]. Qed.
Definition cnt := count_occ Nat.eq_dec.
Lemma cnt_flat (l : list rose) j : cnt (flat_map labels l) j = list_sum (map (fun t => cnt (labels t) j) l).
Proof. induction l as [|t l IH]; [reflexivity|]. cbn [flat_map map list_sum fold_right]. unfold cnt in *. rewrite count_occ_app, IH. reflexivity. Qed.
Definition here (a b : nat) : nat := if Nat.eq_dec a b then 1 else 0.
Lemma cnt_cons a l j : cnt (a :: l) j = (here a j + cnt l j)%nat.
Proof. unfold cnt, here. cbn. destruct (Nat.eq_dec a j); reflexivity. Qed.
Lemma cnt_filter f l j : NoDup l -> cnt (filter f l) j = if in_dec Nat.eq_dec j l then if f j then 1%nat else 0%nat else 0%nat.
Proof.
  induction 1 as [|a l Ha Hl IH]; [reflexivity|]. cbn [filter]. destruct (Nat.eq_dec a j) as [->|N].
  - destruct (in_dec Nat.eq_dec j (j :: l)) as [_|X]; [|exfalso; apply X; left; reflexivity]. destruct (in_dec Nat.eq_dec j l) as [X|_]; [contradiction|]. destruct (f j); [rewrite cnt_cons, IH; unfold here; destruct (Nat.eq_dec j j); [reflexivity|contradiction]|exact IH].
  - replace (cnt (if f a then a :: filter f l else filter f l) j) with (cnt (filter f l) j) by (destruct (f a); [rewrite cnt_cons; unfold here; destruct (Nat.eq_dec a j); [contradiction|reflexivity]|reflexivity]).
    rewrite IH. destruct (in_dec Nat.eq_dec j l) as [I|I], (in_dec Nat.eq_dec j (a :: l)) as [I2|I2]; try reflexivity; exfalso; [apply I2; right; exact I|destruct I2; [contradiction|auto]].
Qed.
(** Every occurrence of a block is under one of its parent. *)
Lemma cnt_parent j n : nth_error ns j = Some n -> (0 < j)%nat -> forall t, wf t -> cnt (labels t) j = (here (root t) j + cnt (labels t) (parent n))%nat.
Proof.
  intros En Pj. assert (K : forall x, cnt (kidsOf ns x) j = here x (parent n)).
  { intros x. unfold kidsOf. rewrite cnt_filter by apply seq_NoDup. assert (j < length ns)%nat by (apply nth_error_Some; congruence). destruct (in_dec Nat.eq_dec j (seq 1 (length ns - 1))) as [_|X]; [|exfalso; apply X, in_seq; lia]. rewrite En. unfold here. destruct (Nat.eqb_spec (parent n) x), (Nat.eq_dec x (parent n)); congruence. }
  induction t as [i l IH] using rose_ind'. intros (W & Wl). apply wf_all in Wl. cbn [labels root]. rewrite !cnt_cons. rewrite <- K, W, !cnt_flat. assert (S : list_sum (map (fun t => cnt (labels t) j) l) = (cnt (map root l) j + list_sum (map (fun t => cnt (labels t) (parent n)) l))%nat); [|lia].
  clear W. induction IH as [|t l Ht Hl IHl]; [reflexivity|]. inversion Wl; subst. cbn [map list_sum fold_right]. rewrite cnt_cons, (Ht ltac:(assumption)). change (fold_right Nat.add 0%nat) with list_sum. rewrite IHl by assumption. lia.
Qed.
Lemma cnt_zero : forall t, wf t -> cnt (labels t) 0 = here (root t) 0.
Proof.
  assert (K : forall x, cnt (kidsOf ns x) 0 = 0%nat). { intros x. unfold kidsOf. rewrite cnt_filter by apply seq_NoDup. destruct (in_dec Nat.eq_dec 0%nat (seq 1 (length ns - 1))) as [X|_]; [apply in_seq in X; lia|reflexivity]. }
  induction t as [i l IH] using rose_ind'. intros (W & Wl). apply wf_all in Wl. cbn [labels root]. rewrite cnt_cons, cnt_flat. specialize (K i). rewrite W in K. assert (S : list_sum (map (fun t => cnt (labels t) 0) l) = cnt (map root l) 0); [|lia].
  clear W K. induction IH as [|t l Ht Hl IHl]; [reflexivity|]. inversion Wl; subst. cbn [map list_sum fold_right]. rewrite cnt_cons, (Ht ltac:(assumption)). change (fold_right Nat.add 0%nat) with list_sum. rewrite IHl by assumption. reflexivity.
Qed.
Lemma cnt_out j : (length ns <= j)%nat -> (0 < j)%nat -> forall t, wf t -> cnt (labels t) j = here (root t) j.
Proof.
  intros Lj Pj. assert (K : forall x, cnt (kidsOf ns x) j = 0%nat). { intros x. unfold kidsOf. rewrite cnt_filter by apply seq_NoDup. destruct (in_dec Nat.eq_dec j (seq 1 (length ns - 1))) as [X|_]; [apply in_seq in X; lia|reflexivity]. }
  induction t as [i l IH] using rose_ind'. intros (W & Wl). apply wf_all in Wl. cbn [labels root]. rewrite cnt_cons, cnt_flat. specialize (K i). rewrite W in K. assert (S : list_sum (map (fun t => cnt (labels t) j) l) = cnt (map root l) j); [|lia].
  clear W K. induction IH as [|t l Ht Hl IHl]; [reflexivity|]. inversion Wl; subst. cbn [map list_sum fold_right]. rewrite cnt_cons, (Ht ltac:(assumption)). change (fold_right Nat.add 0%nat) with list_sum. rewrite IHl by assumption. reflexivity.
Qed.
Lemma cnt_all t : tree ns -> wf t -> root t = 0%nat -> forall j, (j < length ns)%nat -> cnt (labels t) j = 1%nat.
Proof.
  intros (T0 & T1 & T2 & T3) W R. induction j as [j IH] using lt_wf_ind. intros L. destruct j as [|j]; [rewrite cnt_zero by exact W; rewrite R; reflexivity|].
  destruct (nth_error ns (S j)) as [n|] eqn:E; [|apply nth_error_None in E; lia]. rewrite (cnt_parent (S j) n E) by (lia || exact W). specialize (T2 _ _ E ltac:(lia)). rewrite IH by lia. rewrite R. reflexivity.
Qed.

Definition leafAt (i : nat) (b : block) : Prop :=
  exists n, nth_error ns i = Some n /\
  match type n, b with
  | Heading, BHeading level id l => expandInlineElements (rawLines n) = Some l /\ level = indentOrLevel n /\ id = []
  | Paragraph, BPara l => expandInlineElements (rawLines n) = Some l
  | CodeBlock, BCode lines => lines = rawLines n
  | _, _ => False
  end.
Definition textual (i : nat) : bool := match nth_error ns i with Some n => isText (type n) | None => false end.
Lemma seqOpt_spec {A} (l : list (option A)) m : seqOpt l = Some m -> Forall2 (fun o x => o = Some x) l m.
Proof. revert m. induction l as [|[x|] l IH]; intros m E; cbn [seqOpt] in E; [injection E as <-; constructor| |discriminate]. destruct (seqOpt l) as [m'|]; [|discriminate]. injection E as <-. constructor; [reflexivity|apply IH; reflexivity]. Qed.
Lemma filter_flat f (l : list rose) : filter f (flat_map labels l) = flat_map (fun t => filter f (labels t)) l.
Proof. induction l as [|t l IH]; [reflexivity|]. cbn [flat_map]. rewrite filter_app, IH. reflexivity. Qed.
Lemma inlines_tree (T : tree ns) fuel : forall i b, doInlines fuel ns i = Some b -> exists t, root t = i /\ wf t /\ Forall2 leafAt (filter textual (labels t)) (leaves b).
Proof.
  pose proof T as (T0 & T1 & T2 & T3). induction fuel as [|fuel IH]; intros i b E; cbn [doInlines] in E; [discriminate|]. destruct (nth_error ns i) as [n|] eqn:En; [|discriminate].
  assert (Sub : forall bs, seqOpt (map (doInlines fuel ns) (kids n)) = Some bs -> isText (type n) = false -> exists t, root t = i /\ wf t /\ Forall2 leafAt (filter textual (labels t)) (flat_map leaves bs)).
  { clear E. intros bs S Tt. apply seqOpt_spec in S. assert (X : exists l, map root l = kids n /\ Forall wf l /\ Forall2 leafAt (flat_map (fun t => filter textual (labels t)) l) (flat_map leaves bs)).
    { revert bs S. induction (kids n) as [|k ks IHk]; intros bs S; cbn [map] in S; inversion S as [|? x ? xs E1 E2]; subst; [exists []; repeat split; constructor|]. destruct (IH _ _ E1) as (t & R & Wt & Ft). destruct (IHk _ E2) as (l & M & Wl & Fl). exists (t :: l). cbn [map flat_map]. rewrite R, M. split; [reflexivity|]. split; [constructor; assumption|apply Forall2_app; assumption]. }
    destruct X as (l & M & Wl & Fl). exists (Rn i l). split; [reflexivity|]. split; [cbn; split; [rewrite M; symmetry; apply T1, En|apply wf_all, Wl]|]. cbn [labels filter]. unfold textual at 1. rewrite En, Tt, filter_flat. exact Fl. }
  assert (Leaf : isText (type n) = true -> leafAt i b -> leaves b = [b] -> exists t, root t = i /\ wf t /\ Forall2 leafAt (filter textual (labels t)) (leaves b)).
  { intros Tt La Lb. exists (Rn i []). split; [reflexivity|]. split; [cbn; rewrite <- (T1 _ _ En), (T3 _ _ En Tt); auto|]. cbn [labels flat_map filter]. unfold textual. rewrite En, Tt, Lb. constructor; [exact La|constructor]. }
  destruct (type n) eqn:Tn; try discriminate E.
  - destruct (seqOpt (map (doInlines fuel ns) (kids n))) as [bs|] eqn:S; [|discriminate]. injection E as <-. apply Sub; reflexivity.
  - destruct (seqOpt (map (doInlines fuel ns) (kids n))) as [bs|] eqn:S; [|discriminate]. injection E as <-. apply Sub; reflexivity.
  - destruct (seqOpt (map (doInlines fuel ns) (kids n))) as [bs|] eqn:S; [|discriminate]. injection E as <-. apply Sub; reflexivity.
  - destruct (expandInlineElements (rawLines n)) as [l|] eqn:X; [|discriminate]. injection E as <-. apply Leaf; [reflexivity| |reflexivity]. exists n. rewrite Tn. auto.
  - destruct (expandInlineElements (rawLines n)) as [l|] eqn:X; [|discriminate]. injection E as <-. apply Leaf; [reflexivity| |reflexivity]. exists n. rewrite Tn. auto.
  - injection E as <-. apply Leaf; [reflexivity| |reflexivity]. exists n. rewrite Tn. auto.
Qed.
Lemma document_tree doc : tree ns -> document ns = Some doc -> exists t, (forall j, (j < length ns)%nat -> cnt (labels t) j = 1%nat) /\ (forall j, (length ns <= j)%nat -> cnt (labels t) j = 0%nat) /\ (option_map type (nth_error ns 0%nat) = Some Document -> Forall2 leafAt (filter textual (labels t)) (flat_map leaves doc)).
Proof.
  intros T E. pose proof T as (T0 & T1 & _). unfold document in E. destruct (nth_error ns 0%nat) as [n|] eqn:En; [|discriminate]. apply seqOpt_spec in E. assert (X : exists l, map root l = kids n /\ Forall wf l /\ Forall2 leafAt (flat_map (fun t => filter textual (labels t)) l) (flat_map leaves doc)).
  { revert doc E. induction (kids n) as [|k ks IHk]; intros bs S; cbn [map] in S; inversion S as [|? x ? xs E1 E2]; subst; [exists []; repeat split; constructor|]. destruct (inlines_tree T _ _ _ E1) as (t & R & Wt & Ft). destruct (IHk _ E2) as (l & M & Wl & Fl). exists (t :: l). cbn [map flat_map]. rewrite R, M. split; [reflexivity|]. split; [constructor; assumption|apply Forall2_app; assumption]. }
  destruct X as (l & M & Wl & Fl). exists (Rn 0 l). assert (W0 : wf (Rn 0 l)) by (cbn; split; [rewrite M; symmetry; apply T1, En|apply wf_all, Wl]). split; [apply cnt_all; [exact T|exact W0|reflexivity]|]. split; [intros j Lj; rewrite cnt_out by (exact W0 || lia); unfold here; cbn [root]; destruct (Nat.eq_dec 0 j); [lia|reflexivity]|]. intros Dt. cbn [labels filter]. unfold textual at 1. rewrite En. cbn in Dt. injection Dt as ->. cbn [isText]. rewrite filter_flat. exact Fl.
Qed.
End Rose.

(* ---- the whole parser ---- *)
Lemma tree0 : good parser0.
Proof.
  assert (One : forall (x : nat) n, nth_error [newNode 0 Document] x = Some n -> x = 0%nat /\ n = newNode 0 Document) by (intros [|[|x]] n E; cbn in E; try discriminate E; injection E as <-; auto).
  split; [|constructor; [exists (newNode 0 Document); auto|constructor]]. split; [cbn; lia|]. split; [|split]; intros x n E; destruct (One x n E) as (-> & ->); try reflexivity. lia.
Qed.
Lemma view0 src p es : doesAll (view (nodes parser0)) es (view (nodes p)) -> parseLines (S (length src)) parser0 src = Some p -> nth_error (view (nodes p)) 0 = Some (Document, []).
Proof.
  intros D _. revert D. cbn [parser0 nodes view map newNode type rawLines]. assert (H : nth_error [(Document, @nil (list Z))] 0 = Some (Document, [])) by reflexivity. revert H. generalize ([(Document, @nil (list Z))]) as v. generalize (view (nodes p)) as v'. clear.
  induction es as [|e es IH]; intros v' v H D; cbn [doesAll] in D; [subst; exact H|]. destruct D as (v1 & D & D2). apply (IH v' v1); [|exact D2]. clear D2 IH v' es.
  assert (Gr : forall a b : V, grows a b -> nth_error a 0 = Some (Document, []) -> nth_error b 0 = Some (Document, [])) by (intros a b (ts & -> & _) X; destruct a; [discriminate|exact X]).
  assert (Pu : forall c a i t b, puts c a i t b -> nth_error a 0 = Some (Document, []) -> nth_error b 0 = Some (Document, [])).
  { intros c a i t b [(w1 & ty & r & w2 & n & -> & _ & -> & K)|(ty & _ & -> & _)] X; [|destruct a; [discriminate|exact X]]. destruct w1; [|exact X]. cbn in X. injection X as -> _. destruct c; cbn in K; [discriminate K|destruct K as ([K|K] & _); discriminate K]. }
  destruct e as [|i t|i t]; cbn [does] in D; [eapply Gr; eassumption| |]; destruct D as (w & G & P); eapply Pu; try exact P; eapply Gr; eassumption.
Qed.
Theorem text_kept src doc : parse src = Some doc ->
  exists ls es order, linesOf src ls /\ Forall2 entryOf ls es /\ NoDup order /\ Forall2 (holds es) order (flat_map leaves doc) /\
    (forall e i, In e es -> target e = Some i -> In i order) /\
    (forall a e1 b e2 c i j, es = a ++ e1 :: b ++ e2 :: c -> target e1 = Some i -> target e2 = Some j -> (i <= j)%nat).
Proof.
  unfold parse, parseBlocks. intros E. destruct (parseLines (S (length src)) parser0 src) as [p|] eqn:P; [|discriminate].
  assert (O : okL 0 parser0) by (split; [cbn; lia|discriminate]). destruct (lines_ok _ 0 parser0 src p O P) as (ls & es & H1 & H2 & H3 & H4). pose proof (lines_good _ _ _ _ tree0 P) as (T & _). pose proof (view0 src p es H3 P) as V0.
  destruct (document_tree (nodes p) doc T E) as (t & C & C' & F). specialize (F ltac:(unfold view in V0; rewrite nth_error_map in V0; destruct (nth_error (nodes p) 0); [|discriminate]; cbn in *; congruence)).
  assert (C0 : contents (view (nodes parser0)) []).
  { split; [|intros i _; split; reflexivity]. intros i x Ex. destruct i as [|[|i]]; cbn in Ex; try discriminate Ex. injection Ex as <-. split; reflexivity. }
  destruct (contents_all es _ [] _ C0 H3) as ((C1 & _) & C2 & _). cbn [app] in C1. rewrite view_length in C2.
  pose proof (texts_ok ls es (lines_no10 _ _ H1) H2) as TO.
  assert (Fit : forall i n, nth_error (nodes p) i = Some n -> fits es i (type n, rawLines n)) by (intros i n En; apply C1; unfold view; rewrite nth_error_map, En; reflexivity).
  exists ls, es, (filter (textual (nodes p)) (labels t)). split; [exact H1|]. split; [exact H2|]. split; [|split; [|split]].
  - apply NoDup_filter. apply (NoDup_count_occ Nat.eq_dec). intros j. destruct (Nat.lt_ge_cases j (length (nodes p))) as [L|L]; [specialize (C j L); unfold cnt in C; lia|]. specialize (C' j L). unfold cnt in C'. lia.
  - revert F. generalize (filter (textual (nodes p)) (labels t)) as is. generalize (flat_map leaves doc) as bs. intros bs is F. induction F as [|i b is bs (n & En & Hb) F IH]; constructor; [|exact IH]. specialize (Fit i n En). unfold fits in Fit. cbn [fst snd] in Fit. destruct (type n); try contradiction; destruct b; try contradiction.
    + destruct Fit as (F1 & F2). destruct Hb as (X & _ & _). rewrite F2 in X. cbn [holds]. split; [exact F1|]. assert (N : textsOf i es <> []) by (intros Z0; rewrite Z0 in X; discriminate X). split; [exact N|]. destruct (inline_ok _ N (TO i)) as (els & Y1 & Y2). rewrite X in Y1. injection Y1 as ->. exact Y2.
    + destruct Fit as (F1 & F2). rewrite F2 in Hb. cbn [holds]. split; [exact F1|]. assert (N : textsOf i es <> []) by (intros Z0; rewrite Z0 in Hb; discriminate Hb). split; [exact N|]. destruct (inline_ok _ N (TO i)) as (els & Y1 & Y2). rewrite Hb in Y1. injection Y1 as ->. exact Y2.
    + subst lines. exact Fit.
  - intros e i I Te. specialize (C2 e i I Te). apply filter_In. split; [apply (count_occ_In Nat.eq_dec); specialize (C i C2); unfold cnt in C; lia|]. unfold textual. destruct (nth_error (nodes p) i) as [n|] eqn:En; [|apply nth_error_None in En; lia]. specialize (Fit i n En). unfold fits in Fit. cbn [fst snd] in Fit.
    assert (X : textsOf i es <> [] \/ codeOf i es <> []).
    { apply in_split in I. destruct I as (a & b & ->). destruct e as [|j x|j x]; cbn in Te; try discriminate Te; injection Te as ->; [left; rewrite textsOf_app|right; rewrite codeOf_app]; cbn; rewrite Nat.eqb_refl; cbn; (match goal with |- ?l ++ _ <> [] => destruct l; discriminate end). }
    destruct (type n); try reflexivity; destruct Fit as (F1 & F2); exfalso; destruct X; auto.
  - clear - H4. revert H4. generalize 0%nat as L. intros L H. 
    assert (Up : forall es L e j, rising L es -> In e es -> target e = Some j -> (L <= j)%nat).
    { induction es0 as [|e0 es0 IH]; intros L0 e j R I Te; [contradiction|]. destruct R as (R1 & R2), I as [->|I]; [destruct e; cbn in *; try discriminate; injection Te as <-; lia|]. specialize (IH _ _ _ R2 I Te). lia. }
    intros a e1 b e2 c i j -> T1 T2. revert L H. induction a as [|a0 a IH]; intros L (R1 & R2); [|apply (IH _ R2)]. cbn [app] in *. apply (Up (b ++ e2 :: c) i e2 j); [|apply in_app_iff; right; left; reflexivity|exact T2]. destruct e1; cbn in *; try discriminate T1; injection T1 as <-; exact R2.
Qed.
