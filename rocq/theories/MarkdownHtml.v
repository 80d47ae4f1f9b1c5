(* Proofs about the HTML page of a Markdown document. *)
From Coq Require Import Lia ZifyBool ZifyNat String.
From Verif Require Import MarkdownSpec MarkdownProofs EscapeProofs NumTextProofs.
Local Open Scope list_scope.
Local Notation length := List.length.
Local Notation "'do' p <- m ; k" := (match m with Some p => k | None => None end) (at level 200, p pattern, m at level 100, k at level 200).

(* ---- a page has one reading ---- *)
Lemma split_unique {A} (P : A -> Prop) a : forall b x y, a ++ x = b ++ y -> Forall P a -> Forall P b -> (forall c, hd_error x = Some c -> ~ P c) -> (forall c, hd_error y = Some c -> ~ P c) ->
  a = b /\ x = y.
Proof.
  induction a as [|c a IH]; intros b x y E Ha Hb Hx Hy.
  - destruct b as [|d b]; [auto|]. cbn in E. subst x. inversion Hb; subst. exfalso. exact (Hx d eq_refl ltac:(assumption)).
  - inversion Ha; subst. destruct b as [|d b]; cbn in E; [subst y; exfalso; exact (Hy c eq_refl ltac:(assumption))|]. injection E as -> E. inversion Hb; subst.
    destruct (IH b x y) as [-> ->]; auto.
Qed.
Lemma no34 e v : xml_text e v -> Forall (fun c => c <> 34) e.
Proof. intros H. apply xml_no_markup in H. apply Forall_forall. intros c Hc ->. tauto. Qed.
Lemma attrs_hd a l : attrsText a l -> forall s c, hd_error (a ++ 62 :: s) = Some c -> ~ tagChar c.
Proof. intros H s c. destruct H; cbn; intros K; injection K as <-; unfold tagChar; lia. Qed.
Lemma attrs_unique a l : attrsText a l -> forall b m s t, attrsText b m -> a ++ 62 :: s = b ++ 62 :: t -> l = m /\ s = t.
Proof.
  induction 1 as [|n e v x l Hn Hv Hx IH]; intros b m s t Hb E; destruct Hb as [|n2 e2 v2 x2 l2 Hn2 Hv2 Hx2]; try (cbn in E; discriminate).
  - cbn in E. injection E as ->. auto.
  - cbn [app] in E. injection E as E. rewrite <- !app_assoc in E.
    destruct (split_unique tagChar _ _ _ _ E (proj2 Hn) (proj2 Hn2)) as [-> E2]; [cbn; intros c K; injection K as <-; unfold tagChar; lia|cbn; intros c K; injection K as <-; unfold tagChar; lia|].
    cbn [app] in E2. injection E2 as E2. rewrite <- !app_assoc in E2.
    destruct (split_unique (fun c => c <> 34) _ _ _ _ E2 (no34 _ _ Hv) (no34 _ _ Hv2)) as [-> E3]; [cbn; intros c K; injection K as <-; lia|cbn; intros c K; injection K as <-; lia|].
    cbn [app] in E3. injection E3 as E3. destruct (IH _ _ _ _ Hx2 E3) as [-> ->]. rewrite (xml_text_fun _ _ _ Hv Hv2). auto.
Qed.
Lemma ent_char n c s d t : entity n c -> n ++ s = d :: t -> d = 38.
Proof. intros H; destruct H; cbn; intros E; injection E; auto. Qed.
Lemma page_unique s l : page s l -> forall m, page s m -> l = m.
Proof.
  induction 1 as [|c s l Hc Hs IH|n c s l Hn Hs IH|s l Hs IH|n a at_ s l Hn Ha Hs IH|n s l Hn Hs IH]; intros m Hm.
  - remember [] as w eqn:Ew. destruct Hm as [| |n c s l Hn| | |]; try discriminate; [reflexivity|]. destruct Hn; discriminate.
  - remember (c :: s) as w eqn:Ew. destruct Hm; subst.
    + discriminate.
    + injection Ew as -> ->. f_equal. auto.
    + eapply ent_char in Ew; [|eassumption]. subst. cbn in Hc. tauto.
    + injection Ew as <- _. cbn in Hc. tauto.
    + injection Ew as <- _. cbn in Hc. tauto.
    + injection Ew as <- _. cbn in Hc. tauto.
  - remember (n ++ s) as w eqn:Ew. destruct Hm; subst.
    + destruct Hn; discriminate.
    + symmetry in Ew. eapply ent_char in Ew; [|eassumption]. subst. cbn in H. tauto.
    + destruct Hn; destruct H; cbn in Ew; try discriminate; injection Ew as ->; f_equal; auto.
    + destruct Hn; cbn in Ew; discriminate.
    + destruct Hn; cbn in Ew; discriminate.
    + destruct Hn; cbn in Ew; discriminate.
  - remember (txt "&nbsp;" ++ s) as w eqn:Ew. destruct Hm; subst.
    + discriminate.
    + cbn in Ew. injection Ew as -> _. cbn in H. tauto.
    + destruct H; cbn in Ew; discriminate.
    + apply app_inv_head in Ew. subst. f_equal. auto.
    + discriminate.
    + discriminate.
  - remember ([60] ++ n ++ a ++ [62] ++ s) as w eqn:Ew. destruct Hm; subst.
    + discriminate.
    + cbn in Ew. injection Ew as -> _. cbn in H. tauto.
    + destruct H; cbn in Ew; discriminate.
    + discriminate.
    + cbn [app] in Ew. injection Ew as Ew.
      destruct (split_unique tagChar _ _ _ _ Ew (proj2 H) (proj2 Hn)) as [-> E2]; [apply (attrs_hd _ _ H0)|apply (attrs_hd _ _ Ha)|].
      destruct (attrs_unique _ _ H0 _ _ _ _ Ha E2) as [-> ->]. f_equal. auto.
    + cbn [app] in Ew. injection Ew as Ew. destruct Hn as [N F]. destruct n as [|x n]; [congruence|]. inversion F as [|? ? T]; subst. cbn in Ew. injection Ew as <- _. unfold tagChar in T. lia.
  - remember ([60; 47] ++ n ++ [62] ++ s) as w eqn:Ew. destruct Hm; subst.
    + discriminate.
    + cbn in Ew. injection Ew as -> _. cbn in H. tauto.
    + destruct H; cbn in Ew; discriminate.
    + discriminate.
    + cbn [app] in Ew. injection Ew as Ew. destruct H as [N F]. destruct n0 as [|x n0]; [congruence|]. inversion F as [|? ? T]; subst. cbn in Ew. injection Ew as -> _. unfold tagChar in T. lia.
    + cbn [app] in Ew. injection Ew as Ew.
      destruct (split_unique tagChar _ _ _ _ Ew (proj2 H) (proj2 Hn)) as [-> E2]; [cbn; intros c K; injection K as <-; unfold tagChar; lia|cbn; intros c K; injection K as <-; unfold tagChar; lia|].
      injection E2 as ->. f_equal. auto.
Qed.

(* ---- building pages ---- *)
Lemma page_app a l : page a l -> forall b m, page b m -> page (a ++ b) (l ++ m).
Proof.
  induction 1; intros b m Hb; cbn [app]; rewrite <- ?app_assoc; [exact Hb|constructor; auto|constructor; auto|constructor; auto| |].
  - change (60 :: n ++ a ++ 62 :: s ++ b) with ([60] ++ n ++ a ++ [62] ++ s ++ b). constructor; auto.
  - change (60 :: 47 :: n ++ 62 :: s ++ b) with ([60; 47] ++ n ++ [62] ++ s ++ b). constructor; auto.
Qed.
Lemma page_text e s : xml_text e s -> page e (chars s).
Proof. induction 1; cbn; constructor; auto. Qed.
Lemma tag_ok (n : list Z) : (negb (length n =? 0)%nat && forallb (fun c => ((97 <=? c) && (c <=? 122)) || ((48 <=? c) && (c <=? 57))) n) = true -> tagName n.
Proof.
  intros H. apply andb_true_iff in H. destruct H as [H1 H2]. split; [destruct n; [discriminate|congruence]|].
  apply Forall_forall. intros c Hc. rewrite forallb_forall in H2. specialize (H2 c Hc). unfold tagChar. lia.
Qed.
(* the events leave every stack as it was *)
Definition level (e : list ev) : Prop := forall s l, nest s (e ++ l) <-> nest s l.
Lemma level_app a b : level a -> level b -> level (a ++ b).
Proof. intros A B s l. rewrite <- app_assoc. etransitivity; [apply A|apply B]. Qed.
Lemma level_nil : level []. Proof. intros s l. reflexivity. Qed.
Lemma level_chars u : level (chars u).
Proof. intros s l. induction u as [|c u IH]; [reflexivity|exact IH]. Qed.
Lemma level_tag n a e : level e -> level (Open n a :: e ++ [Close n]).
Proof. intros H s l. cbn [app nest]. rewrite <- app_assoc. etransitivity; [apply H|]. cbn. tauto. Qed.
Lemma level_ch c e : level e -> level (Ch c :: e). Proof. intros H s l. exact (H s l). Qed.

Ltac flatten :=
  repeat match goal with |- context [txt ?s] => let v := eval vm_compute in (txt s) in change (txt s) with v end;
  repeat (cbn [app]; rewrite <- !app_assoc); cbn [app]; reflexivity.
Section Doc.
Variable P : list Z -> Prop.
Variable seen : list Z -> list Z -> Prop.
Hypothesis Hseen : forall t, P t -> exists u, seen t u /\ xml_text (esc t) u.

Lemma inl_ind' (Q : inl -> Prop) (HT : forall t, Q (Text t)) (HL : forall d l, Forall Q l -> Q (Link d l)) (HC : forall t, Q (CodeSpan t)) (HB : Q SoftBreak)
  (HE : forall l, Forall Q l -> Q (Emphasis l)) (HS : forall l, Forall Q l -> Q (Strong l)) : forall i, Q i.
Proof.
  fix IH 1. intros i.
  assert (A : forall l : list inl, (fix ok (l : list inl) : Prop := match l with [] => True | i :: l => Q i /\ ok l end) l -> Forall Q l).
  { clear IH. induction l as [|j l IHl]; intros H; constructor; [apply H|apply IHl, H]. }
  destruct i as [t|d l|t| |l|l]; [apply HT|apply HL|apply HC|apply HB|apply HE|apply HS]; apply A; clear A; induction l as [|j l IHl]; try exact I; split; auto.
Qed.
Definition inlGood (i : inl) : Prop := inlOk P i -> exists e, showsInl seen i e /\ page (inlHTML i) e /\ level e.
Lemma inls_good l : Forall inlGood l -> Forall (inlOk P) l -> exists e, showsInls seen l e /\ page (flat_map inlHTML l) e /\ level e.
Proof.
  induction l as [|i l IH]; intros G H; [exists []; split; [constructor|split; [constructor|apply level_nil]]|]. inversion G as [|? ? Gi Gl]; subst. inversion H as [|? ? Hi Hl]; subst.
  destruct (Gi Hi) as (e & S1 & P1 & L1). destruct (IH Gl Hl) as (f & S2 & P2 & L2). exists (e ++ f). split; [constructor; assumption|]. split; [cbn [flat_map]; apply page_app; assumption|apply level_app; assumption].
Qed.
Lemma page_tag n b e : tagName n -> page b e -> page ([60] ++ n ++ [] ++ [62] ++ b ++ [60; 47] ++ n ++ [62]) (Open n [] :: e ++ [Close n]).
Proof. intros Hn Hb. apply pg_open; [exact Hn|constructor|]. apply page_app; [exact Hb|]. rewrite <- (app_nil_r (n ++ [62])), <- app_assoc. apply pg_close; [exact Hn|constructor]. Qed.
Lemma inl_good i : inlGood i.
Proof.
  induction i as [t|d l Hl|t| |l Hl|l Hl] using inl_ind'; intros H; inversion H; subst; cbn [inlHTML].
  - destruct (Hseen t) as (u & S1 & X1); [assumption|]. exists (chars u). split; [constructor; exact S1|]. split; [apply page_text; exact X1|apply level_chars].
  - destruct (Hseen d) as (v & S1 & X1); [assumption|]. destruct (inls_good l Hl) as (e & S2 & P2 & L2); [assumption|].
    exists (Open (txt "a") [(txt "href", v)] :: e ++ [Close (txt "a")]). split; [constructor; assumption|]. split; [|apply level_tag; exact L2].
    replace (txt "<a href=""" ++ esc d ++ txt """>" ++ flat_map inlHTML l ++ txt "</a>")
      with ([60] ++ txt "a" ++ ([32] ++ txt "href" ++ [61; 34] ++ esc d ++ [34] ++ []) ++ [62] ++ flat_map inlHTML l ++ [60; 47] ++ txt "a" ++ [62] ++ [])
      by flatten.
    apply pg_open; [apply tag_ok; reflexivity|constructor; [apply tag_ok; reflexivity|exact X1|constructor]|]. apply page_app; [exact P2|]. apply pg_close; [apply tag_ok; reflexivity|constructor].
  - destruct (Hseen t) as (u & S1 & X1); [assumption|]. exists (Open (txt "code") [] :: chars u ++ [Close (txt "code")]). split; [constructor; exact S1|]. split; [|apply level_tag, level_chars].
    apply (page_tag (txt "code") (esc t)); [apply tag_ok; reflexivity|apply page_text; exact X1].
  - exists [Ch 10]. split; [constructor|]. split; [|apply level_ch, level_nil]. constructor; [cbn; lia|constructor].
  - destruct (inls_good l Hl) as (e & S2 & P2 & L2); [assumption|]. exists (Open (txt "em") [] :: e ++ [Close (txt "em")]). split; [constructor; assumption|]. split; [|apply level_tag; exact L2].
    apply (page_tag (txt "em") (flat_map inlHTML l)); [apply tag_ok; reflexivity|exact P2].
  - destruct (inls_good l Hl) as (e & S2 & P2 & L2); [assumption|]. exists (Open (txt "strong") [] :: e ++ [Close (txt "strong")]). split; [constructor; assumption|]. split; [|apply level_tag; exact L2].
    apply (page_tag (txt "strong") (flat_map inlHTML l)); [apply tag_ok; reflexivity|exact P2].
Qed.
Lemma inls_all l : Forall (inlOk P) l -> exists e, showsInls seen l e /\ page (flat_map inlHTML l) e /\ level e.
Proof. apply inls_good. apply Forall_forall. intros i _. apply inl_good. Qed.

Lemma block_ind' (Q : block -> Prop) (HL : forall s x l, Forall Q l -> Q (BList s x l)) (HI : forall l, Forall Q l -> Q (BItem l)) (HQ : forall l, Forall Q l -> Q (BQuote l))
  (HH : forall n id l, Q (BHeading n id l)) (HP : forall l, Q (BPara l)) (HC : forall l, Q (BCode l)) : forall b, Q b.
Proof.
  fix IH 1. intros b.
  assert (A : forall l : list block, (fix ok (l : list block) : Prop := match l with [] => True | i :: l => Q i /\ ok l end) l -> Forall Q l).
  { clear IH. induction l as [|j l IHl]; intros H; constructor; [apply H|apply IHl, H]. }
  destruct b as [s x l|l|l|n id l|l|l]; [apply HL|apply HI|apply HQ|apply HH|apply HP|apply HC]; apply A; clear A; induction l as [|j l IHl]; try exact I; split; auto.
Qed.
Variable anchors : bool.
Definition blockGood (b : block) : Prop := forall tight, blockOk P tight b -> exists h e, blockHTML anchors tight b = Some h /\ shows seen anchors tight b e /\ page h e /\ level e.
Lemma blocks_good l tight : Forall blockGood l -> Forall (blockOk P tight) l ->
  exists hs e, seqOpt (map (blockHTML anchors tight) l) = Some hs /\ showsAll seen anchors tight l e /\ page (concat hs) e /\ level e.
Proof.
  induction l as [|b l IH]; intros G H; [exists [], []; split; [reflexivity|split; [constructor|split; [constructor|apply level_nil]]]|]. inversion G as [|? ? Gb Gl]; subst. inversion H as [|? ? Hb Hl]; subst.
  destruct (Gb tight Hb) as (h & e & E1 & S1 & P1 & L1). destruct (IH Gl Hl) as (hs & f & E2 & S2 & P2 & L2). exists (h :: hs), (e ++ f).
  split; [cbn [map seqOpt]; rewrite E1; cbv beta iota; rewrite E2; reflexivity|]. split; [constructor; assumption|]. split; [cbn [concat]; apply page_app; assumption|apply level_app; assumption].
Qed.
Definition itemsHTML (tight : bool) := fix items (l : list block) : option (list Z) :=
                  match l with
                  | [] => Some []
                  | b :: l =>
                    do h <- blockHTML anchors tight b;
                    do t <- items l;
                    Some (h ++ (if tight && isPara b && negb (length l =? 0)%nat then [10] else []) ++ t)
                  end.
Lemma page_nl b e : page b e -> page (10 :: b) (Ch 10 :: e).
Proof. apply pg_char. cbn. lia. Qed.
Lemma items_tight l : Forall blockGood l -> Forall (blockOk P true) l -> exists h e, itemsHTML true l = Some h /\ showsTight seen anchors l e /\ page h e /\ level e.
Proof.
  induction l as [|b l IH]; intros G H; [exists [], []; split; [reflexivity|split; [constructor|split; [constructor|apply level_nil]]]|]. inversion G as [|? ? Gb Gl]; subst. inversion H as [|? ? Hb Hl]; subst.
  destruct (Gb true Hb) as (h & e & E1 & S1 & P1 & L1). destruct (IH Gl Hl) as (hs & f & E2 & S2 & P2 & L2).
  exists (h ++ (if true && isPara b && negb (length l =? 0)%nat then [10] else []) ++ hs), (e ++ (match b, l with BPara _, _ :: _ => [Ch 10] | _, _ => [] end) ++ f).
  split; [cbn [itemsHTML]; rewrite E1; cbv beta iota; rewrite E2; reflexivity|]. split; [constructor; assumption|].
  assert (Q : (true && isPara b && negb (length l =? 0)%nat = true /\ (match b, l with BPara _, _ :: _ => [Ch 10] | _, _ => [] end) = [Ch 10]) \/
              (true && isPara b && negb (length l =? 0)%nat = false /\ (match b, l with BPara _, _ :: _ => [Ch 10] | _, _ => [] end) = [])) by (destruct b; destruct l; auto).
  destruct Q as [[-> ->]|[-> ->]]; (split; [apply page_app; [exact P1|]|apply level_app; [exact L1|]]); cbn [app]; auto using page_nl, level_ch.
Qed.
Lemma items_loose l : Forall blockGood l -> Forall (blockOk P false) l -> exists h e, itemsHTML false l = Some h /\ showsAll seen anchors false l e /\ page h e /\ level e.
Proof.
  induction l as [|b l IH]; intros G H; [exists [], []; split; [reflexivity|split; [constructor|split; [constructor|apply level_nil]]]|]. inversion G as [|? ? Gb Gl]; subst. inversion H as [|? ? Hb Hl]; subst.
  destruct (Gb false Hb) as (h & e & E1 & S1 & P1 & L1). destruct (IH Gl Hl) as (hs & f & E2 & S2 & P2 & L2). exists (h ++ hs), (e ++ f).
  split; [cbn [itemsHTML]; rewrite E1; cbv beta iota; rewrite E2; reflexivity|]. split; [constructor; assumption|]. split; [apply page_app; assumption|apply level_app; assumption].
Qed.
Lemma digits_name l n : denotes 10 l n -> Forall tagChar l /\ Forall (fun c => 48 <= c <= 57) l.
Proof.
  induction 1 as [|l n c d Hl IH Hc Hd]; [split; constructor|]. assert (48 <= c <= 57) by (unfold char_digit in Hc; lia).
  split; apply Forall_app; (split; [apply IH|]); constructor; try constructor; unfold tagChar; lia.
Qed.
Lemma digits_text l : Forall (fun c => 48 <= c <= 57) l -> xml_text l l.
Proof. induction 1; constructor; auto. cbn. lia. Qed.
Lemma print_level n : (1 <= n <= 6)%nat -> print_u64 (Z.of_nat n) 10 false = Some [48 + Z.of_nat n].
Proof. intros H. do 7 (destruct n as [|n]; [first [lia|reflexivity]|]). lia. Qed.

Definition good (h : list Z) (e : list ev) : Prop := page h e /\ level e.
Lemma g_nil : good [] []. Proof. split; [constructor|apply level_nil]. Qed.
Lemma g_app a b e f : good a e -> good b f -> good (a ++ b) (e ++ f).
Proof. intros [A1 A2] [B1 B2]. split; [apply page_app; assumption|apply level_app; assumption]. Qed.
Lemma g_nl b e : good b e -> good ([10] ++ b) ([Ch 10] ++ e).
Proof. intros [B1 B2]. split; [apply page_nl; exact B1|apply level_ch; exact B2]. Qed.
Lemma g_end : good [10] [Ch 10].
Proof. apply (g_nl [] []), g_nil. Qed.
Lemma g_tag n a at_ b e : tagName n -> attrsText a at_ -> good b e -> good ([60] ++ n ++ a ++ [62] ++ b ++ [60; 47] ++ n ++ [62]) (Open n at_ :: e ++ [Close n]).
Proof.
  intros Hn Ha [B1 B2]. split; [|apply level_tag; exact B2]. apply pg_open; [exact Hn|exact Ha|]. apply page_app; [exact B1|].
  rewrite <- (app_nil_r (n ++ [62])), <- app_assoc. apply pg_close; [exact Hn|constructor].
Qed.
Lemma g_eq h h' e e' : good h e -> h' = h -> e' = e -> page h' e' /\ level e'.
Proof. intros H -> ->. exact H. Qed.
Lemma a_one n e v : tagName n -> xml_text e v -> attrsText ([32] ++ n ++ [61; 34] ++ e ++ [34] ++ []) [(n, v)].
Proof. intros H1 H2. apply at_cons; [exact H1|exact H2|constructor]. Qed.
Lemma lit t : Forall (fun c => ~ In c [60; 62; 34; 38]) t -> xml_text t t.
Proof. induction 1; constructor; auto. Qed.

Lemma block_good b : blockGood b.
Proof.
  induction b as [s x l Hl|l Hl|l Hl|n id l|l|l] using block_ind'; intros tight H; inversion H; subst.
  - destruct (blocks_good l (negb x) Hl ltac:(assumption)) as (hs & e & E1 & S1 & P1 & L1). pose proof (conj P1 L1 : good _ _) as G.
    assert (N : exists num, print_s64 s 10 false = Some num /\ (0 <= s -> canonical 10 num s)).
    { destruct (Z.leb_spec 0 s) as [Q|Q].
      - destruct (print_u64_canonical s 10 false) as (num & E & Cn); [lia|lia|]. exists num. unfold print_s64. replace (0 <=? s) with true by lia. unfold u64. rewrite Z.mod_small by lia. auto.
      - assert (s = -1) by lia. subst s. exists [45; 49]. split; [reflexivity|lia]. }
    destruct N as (num & En & Cn).
    exists ((if 0 <=? s then if negb (s =? 1) then txt "<ol start=""" ++ num ++ txt """>" ++ [10] else txt "<ol>" ++ [10] else txt "<ul>" ++ [10]) ++
          concat hs ++ (if 0 <=? s then txt "</ol>" ++ [10] else txt "</ul>" ++ [10])), (listOpen s num ++ [Ch 10] ++ e ++ listClose s ++ [Ch 10]).
    split; [cbn [blockHTML]; rewrite E1; cbv beta iota; rewrite En; reflexivity|]. split; [constructor; assumption|].
    unfold listOpen, listClose. destruct (Z.leb_spec 0 s) as [Q|Q].
    + replace (s <? 0) with false by lia. destruct (s =? 1); cbn [negb].
      * eapply g_eq; [apply g_app; [apply (g_tag (txt "ol") [] []); [apply tag_ok; reflexivity|constructor|apply g_nl; exact G]|apply g_end]|flatten|flatten].
      * eapply g_eq; [apply g_app; [apply (g_tag (txt "ol")); [apply tag_ok; reflexivity|apply (a_one (txt "start") num num); [apply tag_ok; reflexivity|apply digits_text; eapply digits_name; apply Cn; lia]|apply g_nl; exact G]|apply g_end]|flatten|flatten].
    + replace (s <? 0) with true by lia.
      eapply g_eq; [apply g_app; [apply (g_tag (txt "ul") [] []); [apply tag_ok; reflexivity|constructor|apply g_nl; exact G]|apply g_end]|flatten|flatten].
  - destruct tight.
    + destruct (items_tight l Hl ltac:(assumption)) as (h & e & E1 & S1 & P1 & L1). pose proof (conj P1 L1 : good _ _) as G. assert (N : l <> []) by auto.
      destruct l as [|b l]; [congruence|]. 
      exists (txt "<li>" ++ (if isPara b then [] else [10]) ++ h ++ txt "</li>" ++ [10]), ([Open (txt "li") []] ++ (match b with BPara _ => [] | _ => [Ch 10] end) ++ e ++ [Close (txt "li"); Ch 10]).
      split; [change (blockHTML anchors true (BItem (b :: l))) with (do body <- itemsHTML true (b :: l); Some (txt "<li>" ++ (if isPara b then [] else [10]) ++ body ++ txt "</li>" ++ [10])); rewrite E1; reflexivity|].
      split; [apply (sh_item_tight _ _ (b :: l) e N S1)|].
      assert (Q : (isPara b = true /\ (match b with BPara _ => [] | _ => [Ch 10] end) = []) \/ (isPara b = false /\ (match b with BPara _ => [] | _ => [Ch 10] end) = [Ch 10])) by (destruct b; auto).
      destruct Q as [[-> ->]|[-> ->]].
      * eapply g_eq; [apply g_app; [apply (g_tag (txt "li") [] []); [apply tag_ok; reflexivity|constructor|exact G]|apply g_end]|flatten|flatten].
      * eapply g_eq; [apply g_app; [apply (g_tag (txt "li") [] []); [apply tag_ok; reflexivity|constructor|apply g_nl; exact G]|apply g_end]|flatten|flatten].
    + destruct (items_loose l Hl ltac:(assumption)) as (h & e & E1 & S1 & P1 & L1). pose proof (conj P1 L1 : good _ _) as G.
      exists (txt "<li>" ++ [10] ++ h ++ txt "</li>" ++ [10]), ([Open (txt "li") []; Ch 10] ++ e ++ [Close (txt "li"); Ch 10]).
      split; [change (blockHTML anchors false (BItem l)) with (do body <- itemsHTML false l; Some (txt "<li>" ++ [10] ++ body ++ txt "</li>" ++ [10])); rewrite E1; reflexivity|].
      split; [constructor; exact S1|].
      eapply g_eq; [apply g_app; [apply (g_tag (txt "li") [] []); [apply tag_ok; reflexivity|constructor|apply g_nl; exact G]|apply g_end]|flatten|flatten].
  - destruct (blocks_good l false Hl ltac:(assumption)) as (hs & e & E1 & S1 & P1 & L1). pose proof (conj P1 L1 : good _ _) as G.
    exists (txt "<blockquote>" ++ [10] ++ concat hs ++ txt "</blockquote>" ++ [10]), ([Open (txt "blockquote") []; Ch 10] ++ e ++ [Close (txt "blockquote"); Ch 10]).
    split; [cbn [blockHTML]; rewrite E1; reflexivity|]. split; [constructor; exact S1|].
    eapply g_eq; [apply g_app; [apply (g_tag (txt "blockquote") [] []); [apply tag_ok; reflexivity|constructor|apply g_nl; exact G]|apply g_end]|flatten|flatten].
  - destruct (Hseen id) as (u & S0 & X0); [assumption|]. destruct (inls_all l) as (e & S1 & P1 & L1); [assumption|]. pose proof (conj P1 L1 : good _ _) as G.
    set (d := 48 + Z.of_nat n). assert (Hd : 49 <= d <= 54) by lia. assert (Tn : tagName [104; d]) by (split; [discriminate|constructor; [unfold tagChar; lia|constructor; [unfold tagChar; lia|constructor]]]).
    exists (txt "<h" ++ [d] ++ (match id with
           | [] => txt ">"
           | _ => if anchors then txt " class=""anchored""><span class=""anchor"" id=""" ++ esc id ++ txt """>&nbsp;</span>"
                  else txt " id=""" ++ esc id ++ txt """>"
           end) ++ flat_map inlHTML l ++ txt "</h" ++ [d] ++ txt ">" ++ [10]), (heading_ anchors id u [104; d] ++ e ++ [Close [104; d]; Ch 10]).
    split; [cbn [blockHTML]; rewrite print_level by assumption; reflexivity|]. split; [constructor; assumption|]. unfold heading_.
    destruct id as [|c id]; [|set (idc := c :: id) in *; change (match c :: id with [] => [Open [104; d] []] | _ :: _ => if anchors then _ else _ end) with (if anchors then [Open [104; d] [(txt "class", txt "anchored")]; Open (txt "span") [(txt "class", txt "anchor"); (txt "id", u)]; Nbsp; Close (txt "span")] else [Open [104; d] [(txt "id", u)]]); destruct anchors].
    + eapply g_eq; [apply g_app; [apply (g_tag [104; d] [] []); [exact Tn|constructor|exact G]|apply g_end]|flatten|flatten].
    + assert (Gs : good ([60] ++ txt "span" ++ ([32] ++ txt "class" ++ [61; 34] ++ txt "anchor" ++ [34] ++ [32] ++ txt "id" ++ [61; 34] ++ esc idc ++ [34] ++ []) ++ [62] ++ (txt "&nbsp;" ++ []) ++ [60; 47] ++ txt "span" ++ [62])
                        (Open (txt "span") [(txt "class", txt "anchor"); (txt "id", u)] :: [Nbsp] ++ [Close (txt "span")])).
      { apply (g_tag (txt "span")).
        - apply tag_ok; reflexivity.
        - apply (at_cons (txt "class") (txt "anchor")); [apply tag_ok; reflexivity|apply lit; repeat (constructor; [cbn; lia|]); constructor|]. apply a_one; [apply tag_ok; reflexivity|exact X0].
        - split; [apply pg_nbsp; constructor|intros s0 l0; reflexivity]. }
      eapply g_eq; [apply g_app; [apply (g_tag [104; d]); [exact Tn|apply (a_one (txt "class") (txt "anchored") (txt "anchored")); [apply tag_ok; reflexivity|apply lit; repeat (constructor; [cbn; lia|]); constructor]|apply g_app; [exact Gs|exact G]]|apply g_end]|flatten|flatten].
    + eapply g_eq; [apply g_app; [apply (g_tag [104; d]); [exact Tn|apply (a_one (txt "id") (esc idc) u); [apply tag_ok; reflexivity|exact X0]|exact G]|apply g_end]|flatten|flatten].
  - destruct (inls_all l) as (e & S1 & P1 & L1); [assumption|]. pose proof (conj P1 L1 : good _ _) as G. destruct tight.
    + exists (flat_map inlHTML l), e. split; [reflexivity|]. split; [constructor; exact S1|]. split; assumption.
    + exists (txt "<p>" ++ flat_map inlHTML l ++ txt "</p>" ++ [10]), ([Open (txt "p") []] ++ e ++ [Close (txt "p"); Ch 10]). split; [reflexivity|]. split; [constructor; exact S1|].
      eapply g_eq; [apply g_app; [apply (g_tag (txt "p") [] []); [apply tag_ok; reflexivity|constructor|exact G]|apply g_end]|flatten|flatten].
  - assert (Cd : exists e, showsCode seen l e /\ good (flat_map esc l) e).
    { clear H. match goal with H : Forall P l |- _ => induction H as [|t l Ht Hl IH] end; [exists []; split; [constructor|apply g_nil]|].
      destruct IH as (e & S1 & G1). destruct (Hseen t Ht) as (u & S2 & X2). exists (chars u ++ e). split; [constructor; assumption|]. cbn [flat_map]. apply g_app; [split; [apply page_text; exact X2|apply level_chars]|exact G1]. }
    destruct Cd as (e & S1 & G). exists (txt "<pre><code>" ++ flat_map esc l ++ txt "</code></pre>" ++ [10]), ([Open (txt "pre") []; Open (txt "code") []] ++ e ++ [Close (txt "code"); Close (txt "pre"); Ch 10]).
    split; [reflexivity|]. split; [constructor; exact S1|].
    eapply g_eq; [apply g_app; [apply (g_tag (txt "pre") [] []); [apply tag_ok; reflexivity|constructor|apply (g_tag (txt "code") [] []); [apply tag_ok; reflexivity|constructor|exact G]]|apply g_end]|flatten|flatten].
Qed.
Theorem html_ok doc : Forall (blockOk P false) doc -> exists h e, convertToHTML anchors doc = Some h /\ showsAll seen anchors false doc e /\ page h e /\ nest [] e.
Proof.
  intros H. destruct (blocks_good doc false) as (hs & e & E & S & Pg & L); [apply Forall_forall; intros b _; apply block_good|exact H|].
  exists (concat hs), e. unfold convertToHTML. rewrite E. split; [reflexivity|]. split; [exact S|]. split; [exact Pg|]. specialize (L [] []). rewrite app_nil_r in L. apply L. reflexivity.
Qed.
End Doc.

Theorem html_exact anchors doc : Forall (blockOk (fun t => bytes_ok t /\ no_overlong_ascii t) false) doc ->
  exists h e, convertToHTML anchors doc = Some h /\ showsAll eq anchors false doc e /\ page h e /\ nest [] e.
Proof. apply html_ok. intros t [H1 H2]. exists t. split; [reflexivity|]. apply xml_lossless; assumption. Qed.
Theorem html_safe anchors doc : Forall (blockOk bytes_ok false) doc ->
  exists h e, convertToHTML anchors doc = Some h /\ showsAll (fun _ _ => True) anchors false doc e /\ page h e /\ nest [] e.
Proof. apply html_ok. intros t H1. destruct (xml_safe t 0 H1) as (u & Hu). exists u. split; [exact I|exact Hu]. Qed.

(* ---- the texts of the elements come from the source ---- *)
Scheme says_mut := Minimality for says Sort Prop with saysAll_mut := Minimality for saysAll Sort Prop.
Lemma says_all (Q : Z -> Prop) : Q 32 -> forall l s, saysAll l s -> Forall Q s -> Forall (inlOk (Forall Q)) l.
Proof.
  intros H32. apply (saysAll_mut (fun e s => Forall Q s -> inlOk (Forall Q) e) (fun l s => Forall Q s -> Forall (inlOk (Forall Q)) l)).
  - intros t _ _ H. constructor. exact H.
  - constructor.
  - intros n body t _ _ Ct H. constructor. apply Forall_app in H. destruct H as [_ H]. apply Forall_app in H. destruct H as [H _].
    assert (M : Forall Q (map (fun c => if c =? 10 then 32 else c) body)). { apply Forall_map. eapply Forall_impl; [|exact H]. cbn. intros c Hc. destruct (c =? 10); assumption. }
    destruct Ct as [t E _|t E _]; [rewrite E in M; apply Forall_app in M; destruct M as [_ M]; apply Forall_app in M; apply M|rewrite E; exact M].
  - intros c l s _ _ IH _ H. constructor. apply IH. apply Forall_app in H. destruct H as [_ H]. apply Forall_app in H. apply H.
  - intros c l s _ _ IH _ H. constructor. apply IH. apply Forall_app in H. destruct H as [_ H]. apply Forall_app in H. apply H.
  - intros dest raw l s w1 w2 _ IH _ _ _ Di H. apply Forall_app in H. destruct H as [_ H]. apply Forall_app in H. destruct H as [Hs H]. apply Forall_app in H. destruct H as [_ H]. apply Forall_app in H. destruct H as [_ H].
    constructor; [|apply IH; exact Hs]. rewrite Forall_forall in *. intros c Hc. apply H. apply Di. exact Hc.
  - constructor.
  - intros e l s t _ IH1 _ IH2 H. apply Forall_app in H. constructor; [apply IH1|apply IH2]; apply H.
Qed.
(* A paragraph: whatever its lines are, its page is well formed and has the tags of its elements only. *)
Theorem para_page anchors lines : lines <> [] -> Forall lineOk lines -> Forall bytes_ok lines ->
  exists els h e, expandInlineElements lines = Some els /\ saysAll els (joined lines) /\
    convertToHTML anchors [BPara els] = Some h /\ showsAll (fun _ _ => True) anchors false [BPara els] e /\ page h e /\ nest [] e.
Proof.
  intros N H B. destruct (inline_ok lines N H) as (els & E & S). assert (J : Forall is_byte (joined lines)).
  { clear -B. induction lines as [|l ls IH]; [constructor|]. inversion B as [|? ? Hl Hls]; subst. destruct ls as [|m ls]; [exact Hl|]. change (joined (l :: m :: ls)) with (l ++ [10] ++ joined (m :: ls)).
    apply Forall_app. split; [exact Hl|]. constructor; [unfold is_byte; lia|]. apply IH. exact Hls. }
  destruct (html_safe anchors [BPara els]) as (h & e & R).
  - constructor; [|constructor]. constructor. apply (says_all is_byte ltac:(unfold is_byte; lia) _ _ S J).
  - exists els, h, e. tauto.
Qed.
