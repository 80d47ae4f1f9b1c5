(* Proofs about the blocks of a Markdown document: where the text of every line goes. *)
From Coq Require Import Lia ZifyBool ZifyNat String.
From Verif Require Import MarkdownBlockSpec MarkdownProofs NumTextProofs StringViewProofs.
Local Open Scope list_scope.
Local Notation length := List.length.
Local Notation "'do' p <- m ; k" := (match m with Some p => k | None => None end) (at level 200, p pattern, m at level 100, k at level 200).

(* ---- columns ---- *)
Definition col (n : nat) (m : list Z) : nat := fold_left (fun n c => if c =? 9 then tabStop n else S n) m n.
Lemma col_app m : forall n l, col n (m ++ l) = col (col n m) l.
Proof. intros n l. apply fold_left_app. Qed.
Lemma tabStop_le n : (n < tabStop n <= n + 4)%nat.
Proof. unfold tabStop. pose proof (Nat.mod_upper_bound n 4). lia. Qed.
(** What a consumer has consumed. *)
Definition mark0 (c : Z) : Prop := c = 32 \/ c = 9 \/ In c [62; 42; 45; 43; 46; 41] \/ 48 <= c <= 57.
Lemma mark0_ok c : mark0 c -> markChar c.
Proof. unfold mark0, markChar, white. cbn. intuition lia. Qed.
Definition at_ (line : list Z) (k : lc) : Prop :=
  (exists m, line = m ++ rest k /\ Forall mark0 m /\ col 0 m = indent k) /\ (outerIndent k <= indent k)%nat.
Lemma at_step line r o n m' r' o' : at_ line (mklc r o n) -> r = m' ++ r' -> Forall mark0 m' -> (o' <= col n m')%nat -> at_ line (mklc r' o' (col n m')).
Proof.
  intros ((m & E & F & C) & O) -> F' Ho. split; [|exact Ho]. cbn [rest indent] in *. exists (m ++ m'). rewrite <- app_assoc. split; [exact E|]. split; [apply Forall_app; auto|]. rewrite col_app, C. reflexivity.
Qed.
Lemma col_le m : forall n, (n <= col n m)%nat.
Proof. induction m as [|c m IH]; intros n; [reflexivity|]. change (col n (c :: m)) with (col (if c =? 9 then tabStop n else S n) m). specialize (IH (if c =? 9 then tabStop n else S n)). pose proof (tabStop_le n). destruct (c =? 9); lia. Qed.
Lemma mark_blank c : (c =? 32) || (c =? 9) = true -> mark0 c.
Proof. unfold mark0. lia. Qed.
Lemma skipBlanks_at r : forall line o n, at_ line (mklc r o n) -> at_ line (skipBlanks r o n).
Proof.
  induction r as [|c r IH]; intros line o n H; [exact H|]. cbn [skipBlanks]. destruct (Z.eqb_spec c 32) as [->|N1].
  - apply IH. apply (at_step line _ o n [32] r o) in H; [exact H|reflexivity|constructor; [left; reflexivity|constructor]|]. destruct H as (_ & O). cbn in *. lia.
  - destruct (Z.eqb_spec c 9) as [->|N2]; [|exact H]. apply IH. apply (at_step line _ o n [9] r o) in H; [exact H|reflexivity|constructor; [right; left; reflexivity|constructor]|]. destruct H as (_ & O). pose proof (tabStop_le n). cbn in *. lia.
Qed.
Lemma consumeAll_at line k : at_ line k -> at_ line (consumeAll k).
Proof. destruct k. apply skipBlanks_at. Qed.
Lemma consumeOne line k k' : at_ line k -> consumeSpaceOrTab k = Some k' -> at_ line k' /\ outerIndent k' = outerIndent k /\ (indent k < indent k')%nat /\ (length (rest k') < length (rest k))%nat.
Proof.
  destruct k as [r o n]. unfold consumeSpaceOrTab. cbn [rest outerIndent indent]. intros H E. destruct r as [|c r]; [discriminate|]. destruct (Z.eqb_spec c 32) as [->|N1].
  - injection E as <-. split; [|cbn; auto]. apply (at_step line _ o n [32] r o) in H; [exact H|reflexivity|constructor; [left; reflexivity|constructor]|]. destruct H as (_ & O). cbn in *. lia.
  - destruct (Z.eqb_spec c 9) as [->|N2]; [|discriminate]. injection E as <-. pose proof (tabStop_le n). split; [|cbn; lia]. apply (at_step line _ o n [9] r o) in H; [exact H|reflexivity|constructor; [right; left; reflexivity|constructor]|]. destruct H as (_ & O). cbn in *. lia.
Qed.
Lemma setOuter_at line k o : at_ line k -> (o <= indent k)%nat -> at_ line (setOuter k o).
Proof. destruct k. intros (H & _) L. split; [exact H|exact L]. Qed.
Lemma eatQuote_at line k r : at_ line k -> rest k = 62 :: r -> at_ line (eatQuote r (indent k)).
Proof.
  intros H E. destruct k as [x o n]. cbn [rest indent] in *. subst x. assert (H1 : at_ line (mklc r (S n) (S n))).
  { apply (at_step line _ o n [62] r (S n)) in H; [exact H|reflexivity|constructor; [right; right; left; cbn; auto|constructor]|cbn; lia]. }
  unfold eatQuote. destruct (consumeSpaceOrTab (mklc r (S n) (S n))) as [k|] eqn:C; [|exact H1]. destruct (consumeOne _ _ _ H1 C) as (A & B & D & _). cbn [outerIndent indent] in *. apply setOuter_at; [exact A|lia].
Qed.
Lemma matchLoop_at line ns stack : forall keep k keep' k', at_ line k -> matchLoop ns stack keep k = Some (keep', k') -> at_ line k'.
Proof.
  induction stack as [|i stack IH]; intros keep k keep' k' H E; cbn [matchLoop] in E; apply consumeAll_at in H.
  - injection E as _ <-. exact H.
  - destruct (nth_error ns i) as [n|]; [|discriminate]. destruct (type n); try discriminate E.
    + destruct (innerIndent (consumeAll k)) as [inner|] eqn:I; [|discriminate]. destruct (Nat.leb_spec (indentOrLevel n) inner) as [L|L]; [|injection E as _ <-; exact H].
      refine (IH _ _ _ _ _ E). apply setOuter_at; [exact H|]. unfold innerIndent in I. destruct (Nat.leb_spec (outerIndent (consumeAll k)) (indent (consumeAll k))); [|discriminate]. injection I as <-. lia.
    + destruct (rest (consumeAll k)) as [|c r] eqn:R; [injection E as _ <-; exact H|]. destruct (Z.eqb_spec c 62) as [->|N]; [|injection E as _ <-; exact H].
      destruct (innerIndent (consumeAll k)) as [inner|]; [|discriminate]. destruct (inner <=? 3)%nat; [|injection E as _ <-; exact H]. refine (IH _ _ _ _ _ E). apply eatQuote_at; assumption.
Qed.
Lemma start_at line : at_ line (mklc line 0 0).
Proof. split; [|cbn; lia]. exists []. repeat split. constructor. Qed.

(* ---- code ---- *)
Lemma extract_ok r m : forall n from t, Forall mark0 m -> (n <= from <= col n m)%nat -> extractFrom (m ++ r) n from = Some t ->
  (exists m1, m ++ r = m1 ++ t /\ t <> [] /\ Forall mark0 m1) \/
  (exists m1 r' j, m ++ r = m1 ++ [9] ++ r' /\ Forall mark0 m1 /\ (1 <= j <= 3)%nat /\ t = repeat 32 j ++ r').
Proof.
  induction m as [|c m IH]; intros n from t F L E.
  - cbn [app col fold_left] in *. destruct r as [|c r]; [discriminate|]. cbn [extractFrom] in E. replace (n =? from)%nat with true in E by lia. injection E as <-. left. exists []. split; [reflexivity|]. split; [discriminate|constructor].
  - inversion F as [|? ? Hc Hm]; subst. cbn [app extractFrom] in E. change (col n (c :: m)) with (col (if c =? 9 then tabStop n else S n) m) in L.
    destruct (Nat.eqb_spec n from) as [->|N]; [injection E as <-; left; exists []; split; [reflexivity|]; split; [discriminate|constructor]|].
    destruct (128 <=? c); [discriminate|]. destruct ((c <? 32) && negb (c =? 9)); [discriminate|]. destruct (Z.eqb_spec c 9) as [->|N9].
    + destruct (Nat.ltb_spec from (tabStop n)) as [B|B].
      * injection E as <-. right. exists [], (m ++ r), (tabStop n - from)%nat. pose proof (tabStop_le n). repeat split; [constructor|lia|lia].
      * destruct (IH (tabStop n) from t Hm ltac:(lia) E) as [(m1 & A & B1 & C)|(m1 & r' & j & A & B1 & C & D)]; [left; exists (9 :: m1)|right; exists (9 :: m1), r', j]; cbn [app]; rewrite A; repeat split; auto; try lia; constructor; assumption.
    + destruct (IH (S n) from t Hm ltac:(lia) E) as [(m1 & A & B1 & C)|(m1 & r' & j & A & B1 & C & D)]; [left; exists (c :: m1)|right; exists (c :: m1), r', j]; cbn [app]; rewrite A; repeat split; auto; try lia; constructor; assumption.
Qed.
Lemma marks m : Forall mark0 m -> Forall markChar m.
Proof. apply Forall_impl, mark0_ok. Qed.
Lemma code_entry line k from t i : at_ line k -> (from <= indent k)%nat -> extractCodeLine line from = Some t -> entryOf line (Code i t).
Proof.
  intros ((m & -> & F & C) & _) L E. unfold extractCodeLine in E. destruct (extract_ok (rest k) m 0 from t F ltac:(lia) E) as [(m1 & A & B & D)|(m1 & r' & j & A & B & D & ->)].
  - rewrite A. constructor; [exact B|apply marks, D].
  - rewrite A. constructor; [apply marks, B|exact D].
Qed.

(* ---- what the blocks contain ---- *)
Definition view (ns : list node) : list (ntype * list (list Z)) := map (fun n => (type n, rawLines n)) ns.
Definition keeps (f : node -> node) : Prop := forall n, type (f n) = type n /\ rawLines (f n) = rawLines n.
Lemma view_upd f ns : forall i, keeps f -> view (upd i f ns) = view ns.
Proof. induction ns as [|n ns IH]; intros i K; [destruct i; reflexivity|]. destruct i; cbn [upd view map]; [destruct (K n) as [-> ->]; reflexivity|]. f_equal. apply IH, K. Qed.
Lemma keeps_kid i : keeps (addKid i). Proof. intros n. split; reflexivity. Qed.
Lemma view_app a b : view (a ++ b) = view a ++ view b. Proof. apply map_app. Qed.
Lemma view_length ns : length (view ns) = length ns. Proof. apply map_length. Qed.
Lemma make_view ns n i ns' : make ns n = (i, ns') -> i = length ns /\ view ns' = view ns ++ [(type n, rawLines n)].
Proof. intros E. injection E as <- <-. rewrite view_app, view_upd by apply keeps_kid. split; reflexivity. Qed.
Lemma view_upd1 n' ns : forall i n, nth_error ns i = Some n -> type n' = type n -> rawLines n' = rawLines n -> view (upd i (fun _ => n') ns) = view ns.
Proof. induction ns as [|x ns IH]; intros i n E T R; destruct i; try discriminate E; cbn [upd view map]; [injection E as ->; rewrite T, R; reflexivity|]. f_equal. eapply IH; eassumption. Qed.
Lemma markLists_view f (Hf : forall l l', f l = Some l' -> type l' = type l /\ rawLines l' = rawLines l) stack : forall ns ns' b, markLists f ns stack = Some (ns', b) -> view ns' = view ns.
Proof.
  induction stack as [|i stack IH]; intros ns ns' b E; cbn [markLists] in E; [injection E as <- _; reflexivity|].
  destruct (nth_error ns i) as [n|]; [|discriminate]. destruct (type n); try (eapply IH; exact E). destruct (nth_error ns (parent n)) as [l|] eqn:N; [|discriminate]. destruct (type l) eqn:T; try discriminate E.
  destruct (f l) as [l'|] eqn:Fl; [|eapply IH; exact E]. destruct (markLists f (upd (parent n) (fun _ => l') ns) stack) as [[ns2 b2]|] eqn:M; [|discriminate]. injection E as <- _.
  rewrite (IH _ _ _ M). destruct (Hf _ _ Fl). eapply view_upd1; eassumption.
Qed.
Lemma may_view l l' : mayBeLoose l = Some l' -> type l' = type l /\ rawLines l' = rawLines l.
Proof. unfold mayBeLoose. destruct (isLoose l); [discriminate|]. intros E. injection E as <-. split; reflexivity. Qed.
Lemma now_view l l' : nowLoose l = Some l' -> type l' = type l /\ rawLines l' = rawLines l.
Proof. unfold nowLoose. destruct (isLooseIfContinued l); [|discriminate]. intros E. injection E as <-. split; reflexivity. Qed.

Definition V := list (ntype * list (list Z)).
(** New blocks without text. *)
Definition grows (v v' : V) : Prop := exists ts, v' = v ++ map (fun t => (t, [])) ts /\ ~ In CodeBlock ts.
Lemma grows_refl v : grows v v. Proof. exists []. cbn. rewrite app_nil_r. auto. Qed.
Lemma grows_trans a b c : grows a b -> grows b c -> grows a c.
Proof. intros (x & -> & Hx) (y & -> & Hy). exists (x ++ y). rewrite map_app, app_assoc. split; [reflexivity|]. rewrite in_app_iff. tauto. Qed.
Lemma grows_one v t : t <> CodeBlock -> grows v (v ++ [(t, [])]). Proof. intros H. exists [t]. split; [reflexivity|]. cbn. intuition congruence. Qed.
(** A text is put into block [i], after [b] empty lines if it is a code block, or into a new one. *)
Definition kind (c : bool) (ty : ntype) (b : nat) : Prop := if c then ty = CodeBlock else (ty = Paragraph \/ ty = Heading) /\ b = 0%nat.
Definition puts (c : bool) (v : V) (i : nat) (t : list Z) (v' : V) : Prop :=
  (exists v1 ty r v2 b, v = v1 ++ (ty, r) :: v2 /\ length v1 = i /\ v' = v1 ++ (ty, r ++ repeat [10] b ++ [t]) :: v2 /\ kind c ty b) \/
  (exists ty, i = length v /\ v' = v ++ [(ty, [t])] /\ kind c ty 0).
Definition does (v : V) (e : entry) (v' : V) : Prop :=
  match e with
  | Nothing => grows v v'
  | Put i t => exists v1, grows v v1 /\ puts false v1 i t v'
  | Code i t => exists v1, grows v v1 /\ puts true v1 i t v'
  end.
Lemma view_addRaw ls ns : forall i n, nth_error ns i = Some n -> exists v1 v2, view ns = v1 ++ (type n, rawLines n) :: v2 /\ length v1 = i /\ view (upd i (addRaw ls) ns) = v1 ++ (type n, rawLines n ++ ls) :: v2.
Proof.
  induction ns as [|x ns IH]; intros i n E; destruct i; try discriminate E.
  - injection E as ->. exists [], (view ns). repeat split.
  - destruct (IH i n E) as (v1 & v2 & A & B & C). exists ((type x, rawLines x) :: v1), v2. cbn [upd view map app length]. fold (view ns). fold (view (upd i (addRaw ls) ns)). rewrite A, C, B. repeat split.
Qed.
Lemma isLeaf_spec p t : isLeaf p t = true -> exists i n, leafNode p = Some i /\ nth_error (nodes p) i = Some n /\ type n = t.
Proof.
  unfold isLeaf, typeOf. destruct (leafNode p) as [i|]; [|discriminate]. destruct (nth_error (nodes p) i) as [n|] eqn:E; cbn; [|discriminate]. intros H. exists i, n. split; [reflexivity|]. split; [exact E|].
  destruct (type n), t; try discriminate H; reflexivity.
Qed.
Lemma addCode_ok p i line from p' k : isLeaf p CodeBlock = true -> leafNode p = Some i -> at_ line k -> (from <= indent k)%nat -> addCode p i line from = Some p' ->
  exists t, entryOf line (Code i t) /\ puts true (view (nodes p)) i t (view (nodes p')) /\ blockNodes p' = blockNodes p /\ leafNode p' = leafNode p /\ length (nodes p') = length (nodes p).
Proof.
  intros H E A L C. unfold addCode in C. destruct (extractCodeLine line from) as [t|] eqn:X; [|discriminate]. injection C as <-. exists t. split; [eapply code_entry; eassumption|].
  destruct (isLeaf_spec _ _ H) as (j & n & Ej & En & T). rewrite E in Ej. injection Ej as <-. destruct (view_addRaw (repeat [10] (numBlank p) ++ [t]) (nodes p) i n En) as (v1 & v2 & V1 & V2 & V3). cbn [nodes blockNodes leafNode].
  split; [left; exists v1, (type n), (rawLines n), v2, (numBlank p); rewrite V3; rewrite T in *; repeat split; auto|]. repeat split. rewrite <- view_length, V3, <- (view_length (nodes p)), V1, !app_length. reflexivity.
Qed.

(* ---- lines ---- *)
Lemma trim_split s : exists a b, s = a ++ trim s ++ b /\ Forall white a /\ Forall white b.
Proof.
  destruct (sv_trim_spec isWhite s) as (a & b & E & A & B & _). exists a, b. split; [exact E|]. split; [revert A|revert B]; apply Forall_impl; intros c; apply white_iff.
Qed.
Lemma whites m : Forall white m -> Forall markChar m.
Proof. apply Forall_impl. intros c H. left. exact H. Qed.
Lemma blank_entry line k : at_ line k -> trim (rest k) = [] -> entryOf line Nothing.
Proof.
  intros ((m & E & F & _) & _) T. destruct (trim_split (rest k)) as (a & b & R & A & B). rewrite T in R. constructor. rewrite E, R. cbn [app]. apply Forall_app. split; [apply marks, F|]. apply Forall_app. split; apply whites; assumption.
Qed.
Lemma trim_hugs s : trim s <> [] -> hugs (trim s).
Proof.
  intros N. destruct (sv_trim_spec isWhite s) as (a & b & _ & _ & _ & H1 & H2). fold (trim s) in H1, H2. destruct (last_ex _ N) as (m & d & E). destruct (trim s) as [|c r] eqn:T; [contradiction|]. exists c, d. split; [reflexivity|]. rewrite E. split; [apply last_snoc|].
  split; apply white_not; [apply (H1 c r), eq_refl|apply (H2 d m), E].
Qed.
Lemma text_entry line k i : at_ line k -> trim (rest k) <> [] -> entryOf line (Put i (trim (rest k))).
Proof.
  intros ((m & E & F & _) & _) T. destruct (trim_split (rest k)) as (a & b & R & A & B). rewrite E, R at 1. rewrite app_assoc. constructor; [apply trim_hugs, T| |exact B]. apply Forall_app. split; [apply marks, F|apply whites, A].
Qed.

Definition okL (L : nat) (p : parser) : Prop := (L <= length (nodes p))%nat /\ forall i, leafNode p = Some i -> (L <= i < length (nodes p))%nat.
Definition nextL (L : nat) (e : entry) : nat := match e with Nothing => L | Put i _ | Code i _ => i end.
Definition lineDone (L : nat) (p p' : parser) (line : list Z) : Prop :=
  exists e, entryOf line e /\ does (view (nodes p)) e (view (nodes p')) /\ okL (nextL L e) p' /\ (L <= nextL L e)%nat.
Lemma grows_length v v' : grows v v' -> (length v <= length v')%nat.
Proof. intros (ts & -> & _). rewrite app_length. lia. Qed.
Lemma cutStack_ok L p keep : okL L p -> okL L (cutStack p keep) /\ nodes (cutStack p keep) = nodes p.
Proof. intros (A & B). unfold cutStack. destruct (_ <? _)%nat; [|split; [split; assumption|reflexivity]]. split; [|reflexivity]. split; [exact A|discriminate]. Qed.
Lemma match_ok L p line p' k : okL L p -> matchExistingIndentation p line = Some (p', k) ->
  match k with
  | None => lineDone L p p' line
  | Some k => okL L p' /\ nodes p' = nodes p /\ at_ line k
  end.
Proof.
  intros O E. unfold matchExistingIndentation in E. destruct (matchLoop (nodes p) (skipn 1 (blockNodes p)) 1 (mklc line 0 0)) as [[keep k0]|] eqn:M; [|discriminate].
  pose proof (matchLoop_at line _ _ _ _ _ _ (start_at line) M) as A. destruct (trim (rest k0)) as [|c t] eqn:T.
  - pose proof (blank_entry line k0 A T) as Bl.
    assert (K : exists p1, (if isLeaf p Paragraph then if (numBlank p =? 0)%nat then Some (mkp (nodes p) (blockNodes p) None (numBlank p) (checkCont p)) else None else Some p) = Some p1 /\ nodes p1 = nodes p /\ okL L p1 \/
      (if isLeaf p Paragraph then if (numBlank p =? 0)%nat then Some (mkp (nodes p) (blockNodes p) None (numBlank p) (checkCont p)) else None else Some p) = None).
    { destruct (isLeaf p Paragraph); [|exists p; left; split; [reflexivity|split; [reflexivity|exact O]]]. destruct (numBlank p =? 0)%nat; [|exists p; right; reflexivity]. exists (mkp (nodes p) (blockNodes p) None (numBlank p) (checkCont p)). left. split; [reflexivity|]. split; [reflexivity|]. split; [exact (proj1 O)|intros i Hi; discriminate Hi]. }
    destruct K as (p1 & [(K & N1 & O1)|K]); rewrite K in E; [|discriminate]. destruct (keepItems (nodes p1) (skipn keep (blockNodes p1)) keep) as [keep2|]; [|discriminate].
    destruct (cutStack_ok L p1 keep2 O1) as (O2 & N2). set (p2 := cutStack p1 keep2) in *. clearbody p2. rewrite N1 in N2.
    destruct (leafNode p2) as [i|] eqn:Lf.
    + destruct (isLeaf p2 CodeBlock) eqn:C; [|discriminate]. destruct (innerIndent k0) as [inner|] eqn:I; [|discriminate]. destruct (Nat.ltb_spec 4 inner) as [G|G].
      * destruct (addCode p2 i line (outerIndent k0 + 4)) as [p3|] eqn:AC; [|discriminate]. injection E as <- <-.
        unfold innerIndent in I. destruct (Nat.leb_spec (outerIndent k0) (indent k0)); [|discriminate]. injection I as <-.
        destruct (addCode_ok p2 i line (outerIndent k0 + 4)%nat p3 k0 C Lf A ltac:(lia) AC) as (t & E1 & E2 & E3 & E4 & E5). exists (Code i t). split; [exact E1|]. rewrite N2 in E2. split; [exists (view (nodes p)); split; [apply grows_refl|exact E2]|].
        destruct O2 as (O2 & O3). specialize (O3 i Lf). cbn [nextL]. split; [|lia]. split; [lia|]. rewrite E4, Lf. intros j Ej. injection Ej as <-. lia.
      * injection E as <- <-. exists Nothing. split; [exact Bl|]. cbn [does nodes nextL]. rewrite N2. split; [apply grows_refl|]. split; [|lia]. destruct O2 as (O2 & O3). rewrite N2 in O2, O3. split; [exact O2|]. cbn [leafNode nodes]. intros j Hj. apply O3. rewrite Lf. exact Hj.
    + destruct (markLists mayBeLoose (nodes p2) (blockNodes p2)) as [[ns any]|] eqn:ML; [|discriminate]. injection E as <- <-. pose proof (markLists_view mayBeLoose may_view _ _ _ _ ML) as Vw. exists Nothing. split; [exact Bl|]. cbn [does nodes nextL].
      rewrite Vw, N2. split; [apply grows_refl|]. split; [|lia]. split; [|discriminate]. cbn [nodes]. rewrite <- view_length, Vw, view_length. exact (proj1 O2).
  - injection E as <- <-. destruct (cutStack_ok L p keep O) as (O2 & N2). auto.
Qed.

(** New markers. *)
Lemma gotList_ok L p level num punc p' : okL L p -> gotListMarker p level num punc = Some p' -> okL L p' /\ grows (view (nodes p)) (view (nodes p')).
Proof.
  intros O E. unfold gotListMarker in E. destruct (hd_error (rev (blockNodes p))) as [top|]; [|discriminate]. destruct (nth_error (nodes p) top) as [ctr|]; [|discriminate].
  match type of E with match type ctr with Document => ?X | List_ => _ | ListItem => _ | BlockQuote => _ | Heading => _ | Paragraph => _ | CodeBlock => _ end = _ => assert (E' : X = Some p' \/ exists l pc, (let (listNode, ns) := match l with Some l => (l, nodes p) | None => make (nodes p) (mkn List_ pc 0 num punc false false [] []) end in
    let (item, ns) := make ns (mkn ListItem listNode level 0 45 false false [] []) in Some (mkp ns (blockNodes p ++ [item]) None 0 (checkCont p))) = Some p') end.
  { right. destruct (type ctr); try discriminate E; (match type of E with match ?m with Some _ => _ | None => None end = _ => destruct m as [[l pc]|]; [|discriminate E] end); exists l, pc; exact E. }
  clear E. assert (E : exists l pc, (let (listNode, ns) := match l with Some l => (l, nodes p) | None => make (nodes p) (mkn List_ pc 0 num punc false false [] []) end in
    let (item, ns) := make ns (mkn ListItem listNode level 0 45 false false [] []) in Some (mkp ns (blockNodes p ++ [item]) None 0 (checkCont p))) = Some p').
  { destruct E' as [E|E]; [|exact E]. match type of E with match ?m with Some _ => _ | None => None end = _ => destruct m as [[l pc]|]; [|discriminate E] end. exists l, pc. exact E. }
  clear E'. destruct E as (l & pc & E).
  assert (Fst : exists ln ns1, match l with Some l => (l, nodes p) | None => make (nodes p) (mkn List_ pc 0 num punc false false [] []) end = (ln, ns1) /\ grows (view (nodes p)) (view ns1)).
  { destruct l as [l|]; [exists l, (nodes p); split; [reflexivity|apply grows_refl]|]. destruct (make (nodes p) (mkn List_ pc 0 num punc false false [] [])) as [ln ns1] eqn:M. exists ln, ns1. split; [reflexivity|]. destruct (make_view _ _ _ _ M) as (_ & ->). apply grows_one; discriminate. }
  destruct Fst as (ln & ns1 & E1 & G1). rewrite E1 in E. destruct (make ns1 (mkn ListItem ln level 0 45 false false [] [])) as [item ns2] eqn:M. injection E as <-. destruct (make_view _ _ _ _ M) as (_ & V2).
  assert (G : grows (view (nodes p)) (view ns2)) by (eapply grows_trans; [exact G1|rewrite V2; apply grows_one; discriminate]). cbn [nodes]. split; [|exact G]. split; [|discriminate]. cbn [nodes]. apply grows_length in G. rewrite !view_length in G. destruct O as (O & _). lia.
Qed.
Lemma afterMarker_at line p r o ind k : at_ line (mklc r o ind) -> afterMarker p r o ind = Some k -> at_ line k.
Proof.
  intros H E. unfold afterMarker in E. destruct (consumeSpaceOrTab (mklc r o ind)) as [k1|] eqn:C; [|discriminate]. destruct (consumeOne _ _ _ H C) as (A & B & D & _). cbn [outerIndent indent] in *.
  assert (E' : k = setOuter k1 (S ind)) by (destruct (leafNode p); [destruct (trim (rest k1))|]; congruence). subst k. apply setOuter_at; [exact A|lia].
Qed.
Lemma u64_loop_split ins : forall res any ov, let '(_, rest, _, _) := u64_loop ins 10 res any ov in exists d, ins = d ++ rest /\ Forall (fun c => 48 <= c <= 57) d.
Proof.
  induction ins as [|c ins IH]; intros res any ov; cbn [u64_loop]; [exists []; split; [reflexivity|constructor]|]. destruct (Z.leb_spec 10 (digitValue c)) as [L|L]; [exists []; split; [reflexivity|constructor]|].
  specialize (IH (u64 (res * 10 + digitValue c)) true (ov || (0x71c71c71c71c71b <? res) && ((2 ^ 64 - 1 - digitValue c) / 10 <? res))). destruct (u64_loop ins 10 _ true _) as [[[a b] x] y]. destruct IH as (d & -> & F). exists (c :: d). split; [reflexivity|]. constructor; [|exact F].
  unfold digitValue in L. destruct ((48 <=? c) && (c <=? 57)) eqn:D; [lia|]. destruct ((65 <=? c) && (c <=? 90)) eqn:D2; [lia|]. destruct ((97 <=? c) && (c <=? 122)) eqn:D3; lia.
Qed.
Lemma parse_split ins num : parse_u64 ins 10 = Some num -> exists d, ins = d ++ prest num /\ Forall (fun c => 48 <= c <= 57) d.
Proof.
  unfold parse_u64. cbn [Z.ltb Z.leb Z.compare Pos.compare Pos.compare_cont andb]. pose proof (u64_loop_split ins 0 false false) as H. destruct (u64_loop ins 10 0 false false) as [[[a b] x] y]. destruct (negb x || y); intros E; injection E as <-; exact H.
Qed.
Lemma col_digits d : forall n, Forall (fun c => 48 <= c <= 57) d -> col n d = (n + length d)%nat.
Proof. induction d as [|c d IH]; intros n F; [cbn; lia|]. inversion F; subst. change (col n (c :: d)) with (col (if c =? 9 then tabStop n else S n) d). replace (c =? 9) with false by lia. rewrite IH by assumption. cbn [length]. lia. Qed.
Lemma oneMarker_ok L p line k p' k' : okL L p -> at_ line k -> oneMarker p k = Some (Some (p', k')) -> okL L p' /\ grows (view (nodes p)) (view (nodes p')) /\ at_ line k'.
Proof.
  intros O A E. unfold oneMarker in E. destruct (rest k) as [|c r] eqn:R; [discriminate|]. destruct (isWhite c); [discriminate|]. destruct (Z.eqb_spec c 62) as [->|N].
  - destruct (hd_error (rev (blockNodes p))) as [top|]; [|discriminate]. destruct (make (nodes p) (newNode top BlockQuote)) as [q ns] eqn:M. destruct (make_view _ _ _ _ M) as (_ & V1). injection E as <- <-. cbn [nodes].
    split; [|split; [rewrite V1; apply grows_one; discriminate|apply eatQuote_at; assumption]]. destruct O as (O1 & O2). assert (Ln : length ns = S (length (nodes p))) by (rewrite <- view_length, V1, app_length, view_length; cbn [length]; lia).
    split; cbn [nodes leafNode]; [lia|]. intros i Hi. specialize (O2 i Hi). lia.
  - destruct k as [r0 o n]. cbn [rest outerIndent indent] in *. subst r0. destruct ((c =? 42) || (c =? 45) || (c =? 43)) eqn:B.
    + assert (A1 : at_ line (mklc r o (S n))).
      { apply (at_step line _ o n [c] r o) in A as A2; [|reflexivity|constructor; [unfold mark0; cbn; lia|constructor]|destruct A as (_ & A); pose proof (col_le [c] n); cbn [outerIndent indent] in A; lia]. replace (col n [c]) with (S n) in A2 by (cbn; replace (c =? 9) with false by lia; reflexivity). exact A2. }
      destruct (afterMarker p r o (S n)) as [k1|] eqn:AM; [|discriminate]. destruct (gotListMarker p (outerIndent k1) (-1) c) as [p1|] eqn:G; [|discriminate]. injection E as <- <-. destruct (gotList_ok L _ _ _ _ _ O G) as (G1 & G2). split; [exact G1|]. split; [exact G2|]. eapply afterMarker_at; eassumption.
    + destruct (isDecimalDigit c); [|discriminate]. destruct (parse_u64 (c :: r) 10) as [num|] eqn:P; [|discriminate]. destruct (parse_split _ _ P) as (d & Ed & Fd).
      match type of E with (if ?b then _ else _) = _ => destruct b; [discriminate E|] end. destruct (prest num) as [|punc [|x r2]] eqn:Pr; try discriminate E. destruct ((punc =? 46) || (punc =? 41)) eqn:Bp; [|discriminate].
      set (ml := (length (c :: r) - length (punc :: x :: r2))%nat) in *. assert (Hml : ml = length d) by (unfold ml; rewrite Ed, app_length; lia). clearbody ml. subst ml.
      assert (A1 : at_ line (mklc (x :: r2) o (S (n + length d)))).
      { assert (C1 : col n (d ++ [punc]) = S (n + length d)) by (rewrite col_app, (col_digits d) by exact Fd; cbn [col fold_left]; replace (punc =? 9) with false by lia; reflexivity). rewrite <- C1. eapply at_step; [exact A|rewrite Ed, <- app_assoc; reflexivity| |rewrite C1; destruct A as (_ & A); cbn [outerIndent indent] in A; lia].
        apply Forall_app. split; [revert Fd; apply Forall_impl; intros y Hy; unfold mark0; lia|]. constructor; [unfold mark0; cbn; lia|constructor]. }
      destruct (afterMarker p (x :: r2) o (S (n + length d))) as [k1|] eqn:AM; [|discriminate]. destruct (gotListMarker p (outerIndent k1) (pval num) punc) as [p1|] eqn:G; [|discriminate]. injection E as <- <-. destruct (gotList_ok L _ _ _ _ _ O G) as (G1 & G2). split; [exact G1|]. split; [exact G2|]. eapply afterMarker_at; eassumption.
Qed.
Lemma newMarkers_ok line L fuel : forall p k p' k', okL L p -> at_ line k -> parseNewMarkers fuel p k = Some (p', k') -> okL L p' /\ grows (view (nodes p)) (view (nodes p')) /\ at_ line k'.
Proof.
  induction fuel as [|fuel IH]; intros p k p' k' O A E; cbn [parseNewMarkers] in E; [discriminate|].
  assert (Stop : Some (p, k) = Some (p', k') -> okL L p' /\ grows (view (nodes p)) (view (nodes p')) /\ at_ line k') by (intros X; injection X as <- <-; split; [exact O|]; split; [apply grows_refl|exact A]).
  destruct (rest k) eqn:R; [apply Stop, E|]. destruct (innerIndent k) as [inner|]; [|discriminate]. destruct (4 <=? inner)%nat; [apply Stop, E|]. destruct (oneMarker p k) as [[[p1 k1]|]|] eqn:M; [|apply Stop, E|discriminate].
  destruct (oneMarker_ok L p line k p1 k1 O A M) as (O1 & G1 & A1). destruct (IH p1 (consumeAll k1) p' k' O1 (consumeAll_at _ _ A1) E) as (O2 & G2 & A2). split; [exact O2|]. split; [eapply grows_trans; eassumption|exact A2].
Qed.
(* ---- the rest of a line ---- *)
Lemma does_after v0 v e v' : grows v0 v -> does v e v' -> does v0 e v'.
Proof. intros G D. destruct e as [|i t|i t]; [exact (grows_trans _ _ _ G D)| |]; destruct D as (v1 & G1 & P); exists v1; (split; [eapply grows_trans; eassumption|exact P]). Qed.
Lemma done_after L p0 p p' line : grows (view (nodes p0)) (view (nodes p)) -> lineDone L p p' line -> lineDone L p0 p' line.
Proof. intros G (e & A & B & C). exists e. split; [exact A|]. split; [eapply does_after; eassumption|exact C]. Qed.
(** A new block with a text. *)
Lemma done_make L p line t n i ns b sb nb cc : okL L p -> make (nodes p) n = (i, ns) -> rawLines n = [t] -> type n = Paragraph \/ type n = Heading -> entryOf line (Put (length (nodes p)) t) ->
  b = None \/ b = Some i -> lineDone L p (mkp ns sb b nb cc) line.
Proof.
  intros O M R T E B. destruct (make_view _ _ _ _ M) as (-> & V1). exists (Put (length (nodes p)) t). split; [exact E|]. cbn [nodes does nextL]. split.
  - exists (view (nodes p)). split; [apply grows_refl|]. right. exists (type n). rewrite view_length, V1, R. repeat split. exact T.
  - assert (Ln : length ns = S (length (nodes p))) by (rewrite <- view_length, V1, app_length, view_length; cbn [length]; lia). destruct O as (O1 & O2). split; [|exact O1]. split; cbn [nodes leafNode]; [lia|]. intros j Hj. destruct B as [->| ->]; [discriminate Hj|]. injection Hj as <-. lia.
Qed.
Lemma span_split f l a b : span f l = (a, b) -> l = a ++ b /\ Forall (fun c => f c = true) a.
Proof. intros E. pose proof (span_spec f l) as H. rewrite E in H. tauto. Qed.
Lemma para_ok L p line k p' : okL L p -> at_ line k -> parseParagraphText p line k = Some p' -> lineDone L p p' line.
Proof.
  intros O A E. unfold parseParagraphText in E. destruct (innerIndent k) as [inner|] eqn:I; [|discriminate]. destruct (hd_error (rev (blockNodes p))) as [top|]; [|discriminate].
  unfold innerIndent in I. destruct (Nat.leb_spec (outerIndent k) (indent k)) as [Lk|]; [|discriminate]. injection I as <-.
  assert (Same : trim (rest k) = [] -> lineDone L p p line) by (intros T; exists Nothing; split; [eapply blank_entry; eassumption|]; split; [apply grows_refl|]; split; [exact O|cbn; lia]).
  destruct (negb (isLeaf p Paragraph) && (4 <=? indent k - outerIndent k)%nat) eqn:Cd.
  - apply andb_prop in Cd. destruct Cd as (_ & Cd). apply Nat.leb_le in Cd.
    assert (X : match leafNode p with Some i => if isLeaf p CodeBlock then addCode p i line (outerIndent k + 4) else None | None => Some p end = Some p' -> (leafNode p = None -> trim (rest k) = []) -> lineDone L p p' line).
    { intros E1 N1. destruct (leafNode p) as [i|] eqn:Lf.
      - destruct (isLeaf p CodeBlock) eqn:C; [|discriminate]. destruct (addCode_ok p i line (outerIndent k + 4)%nat p' k C Lf A ltac:(lia) E1) as (t & E2 & E3 & E4 & E5 & E6). exists (Code i t). split; [exact E2|]. split; [exists (view (nodes p)); split; [apply grows_refl|exact E3]|].
        destruct O as (O1 & O2). specialize (O2 i Lf). cbn [nextL]. split; [|lia]. split; [lia|]. rewrite E5, Lf. intros j Ej. injection Ej as <-. lia.
      - injection E1 as <-. apply Same, N1. reflexivity. }
    destruct (trim (rest k)) as [|c t] eqn:T.
    + apply X; [exact E|auto].
    + destruct (leafNode p) as [i|] eqn:Lf; [apply X; [rewrite Lf in E; exact E|discriminate]|].
      destruct (Nat.eqb_spec (numBlank p) 0) as [B0|]; [|discriminate]. destruct (make (nodes p) (newNode top CodeBlock)) as [i ns] eqn:M. destruct (make_view _ _ _ _ M) as (Ei & V1). cbn [leafNode] in E.
      set (p1 := mkp ns (blockNodes p) (Some i) (numBlank p) (checkCont p)) in *. destruct (isLeaf p1 CodeBlock) eqn:C; [|discriminate]. unfold addCode in E. destruct (extractCodeLine line (outerIndent k + 4)) as [t1|] eqn:Xc; [|discriminate]. injection E as <-.
      assert (Ln : length ns = S (length (nodes p))) by (rewrite <- view_length, V1, app_length, view_length; cbn [length]; lia).
      destruct (isLeaf_spec _ _ C) as (j & n & Ej & En & Tn). cbn [leafNode p1] in Ej. injection Ej as <-. cbn [nodes p1] in En. destruct (view_addRaw (repeat [10] (numBlank p) ++ [t1]) ns i n En) as (v1 & v2 & W1 & W2 & W3).
      assert (Q : v1 = view (nodes p) /\ (type n, rawLines n) :: v2 = [(CodeBlock, [])]) by (apply app_inv_length_r; [rewrite <- W1, V1; reflexivity|]; apply (f_equal (@length _)) in W1; rewrite view_length, app_length in W1; cbn [length] in *; lia).
      destruct Q as (-> & Q). injection Q as _ R0 ->. exists (Code i t1). split; [eapply code_entry; [exact A| |exact Xc]; lia|]. cbn [nodes does nextL p1] in *. split.
      * exists (view (nodes p)). split; [apply grows_refl|]. right. exists CodeBlock. rewrite view_length, W3, R0, Tn, B0. repeat split. exact Ei.
      * destruct O as (O1 & _). split; [|lia]. assert (Ln2 : length (upd i (addRaw (repeat [10] (numBlank p) ++ [t1])) ns) = length ns) by (rewrite <- view_length, W3, app_length, view_length; cbn [length]; lia).
        split; cbn [nodes leafNode]; [lia|]. intros j Hj. injection Hj as <-. lia.
  - clear Cd. destruct (trim (rest k)) as [|c0 t0] eqn:T.
    + destruct (leafNode p); [discriminate|]. injection E as <-. apply Same. reflexivity.
    + set (t := c0 :: t0) in *. assert (Tn : t <> []) by discriminate. clearbody t.
      assert (Cc : exists p1, (if checkCont p then match leafNode p with Some _ => None | None => do (ns, _) <- markLists nowLoose (nodes p) (blockNodes p); Some (mkp ns (blockNodes p) None (numBlank p) false) end else Some p) = Some p1 /\
        okL L p1 /\ view (nodes p1) = view (nodes p) /\ (isLeaf p Paragraph = true -> p1 = p)).
      { destruct (checkCont p) eqn:Ck; [|exists p; auto]. destruct (leafNode p) eqn:Lf; [discriminate|]. destruct (markLists nowLoose (nodes p) (blockNodes p)) as [[ns b]|] eqn:M; [|discriminate]. pose proof (markLists_view nowLoose now_view _ _ _ _ M) as V1.
        exists (mkp ns (blockNodes p) None (numBlank p) false). split; [reflexivity|]. cbn [nodes]. split; [split; cbn [nodes leafNode]; [rewrite <- view_length, V1, view_length; exact (proj1 O)|intros j Hj; discriminate Hj]|]. split; [exact V1|]. unfold isLeaf. rewrite Lf. discriminate. }
      destruct Cc as (p1 & Ec & O1 & V1 & P1). rewrite Ec in E. clear Ec. apply (done_after L p p1); [rewrite V1; apply grows_refl|].
      assert (Para : (if isLeaf p Paragraph then do i <- leafNode p1; Some (mkp (upd i (addRaw [t]) (nodes p1)) (blockNodes p1) (leafNode p1) (numBlank p1) (checkCont p1))
        else let (i, ns) := make (nodes p1) (addRaw [t] (newNode top Paragraph)) in Some (mkp ns (blockNodes p1) (Some i) 0 (checkCont p1))) = Some p' -> lineDone L p1 p' line).
      { intros Ep. destruct (isLeaf p Paragraph) eqn:Lp.
        - rewrite (P1 eq_refl) in *. clear P1 V1 p1. destruct (isLeaf_spec _ _ Lp) as (i & n & Ei & En & Tn'). rewrite Ei in Ep. injection Ep as <-. destruct (view_addRaw [t] (nodes p) i n En) as (v1 & v2 & W1 & W2 & W3). destruct O as (O3 & O4). specialize (O4 i Ei).
          exists (Put i t). split; [rewrite <- T; apply text_entry; [exact A|congruence]|]. cbn [nodes does nextL]. split; [exists (view (nodes p)); split; [apply grows_refl|]; left; exists v1, (type n), (rawLines n), v2, 0%nat; rewrite W3; repeat split; [exact W1|exact W2|left; exact Tn']|].
          split; [|lia]. assert (Ln : length (upd i (addRaw [t]) (nodes p)) = length (nodes p)) by (rewrite <- view_length, W3, <- (view_length (nodes p)), W1, !app_length; reflexivity).
          split; cbn [nodes leafNode]; [lia|]. rewrite ?Ei. intros j Hj. injection Hj as <-. lia.
        - destruct (make (nodes p1) (addRaw [t] (newNode top Paragraph))) as [i ns] eqn:M. injection Ep as <-. eapply done_make; [exact O1|exact M|reflexivity|left; reflexivity|rewrite <- T; apply text_entry; [exact A|congruence]|right; reflexivity]. }
      destruct (rest k) as [|c r] eqn:R; [discriminate|]. destruct ((c =? 35) && _); [|apply Para, E]. destruct (heading (c :: r)) as [[level r2]|] eqn:H; [|apply Para, E].
      unfold heading in H. destruct (span (fun c => c =? 35) (c :: r)) as [pounds r1] eqn:S1. destruct (span isWhite r1) as [space r3] eqn:S2. destruct (_ && _); [|discriminate]. injection H as _ ->.
      destruct (span_split _ _ _ _ S1) as (E1 & F1). destruct (span_split _ _ _ _ S2) as (E2 & F2). destruct (trim_split r2) as (a & b & E3 & F3 & F4). destruct A as ((m & Em & Fm & _) & _). rewrite R in Em.
      assert (Pre : Forall markChar (m ++ pounds ++ space ++ a)).
      { repeat (apply Forall_app; split); [apply marks, Fm|revert F1; apply Forall_impl; intros x Hx; right; left; cbn; lia|revert F2; apply Forall_impl; intros x Hx; left; apply white_iff, Hx|apply whites, F3]. }
      assert (El : line = (m ++ pounds ++ space ++ a) ++ trim r2 ++ b) by (rewrite Em, E1, E2, E3 at 1; rewrite <- !app_assoc; reflexivity).
      destruct (trim r2) as [|c2 t2] eqn:T2.
      * destruct (make (nodes p1) (mkn Heading top level 0 45 false false [] [])) as [i ns] eqn:M. destruct (make_view _ _ _ _ M) as (_ & V2). injection E as <-. exists Nothing. split; [constructor; rewrite El; apply Forall_app; split; [exact Pre|apply whites, F4]|]. cbn [nodes does nextL]. rewrite V2. split; [apply grows_one; discriminate|]. split; [|lia].
        split; cbn [nodes leafNode]; [|discriminate]. rewrite <- view_length, V2, app_length, view_length. cbn [length]. destruct O1 as (O1 & _). lia.
      * destruct (make (nodes p1) (mkn Heading top level 0 45 false false [] [c2 :: t2])) as [i ns] eqn:M. injection E as <-. eapply done_make; [exact O1|exact M|reflexivity|right; reflexivity|rewrite El; constructor; [rewrite <- T2; apply trim_hugs; congruence|exact Pre|exact F4]|left; reflexivity].
Qed.
Lemma line_ok L p line p' : okL L p -> parseLine p line = Some p' -> lineDone L p p' line.
Proof.
  intros O E. unfold parseLine in E. destruct (matchExistingIndentation p line) as [[p1 k]|] eqn:M; [|discriminate]. pose proof (match_ok L p line p1 k O M) as H. destruct k as [k|]; [|injection E as <-; exact H]. destruct H as (O1 & N1 & A1).
  destruct (parseNewMarkers (S (length (rest k))) p1 k) as [[p2 k2]|] eqn:N; [|discriminate]. destruct (newMarkers_ok line L _ _ _ _ _ O1 A1 N) as (O2 & G2 & A2). rewrite N1 in G2. eapply done_after; [exact G2|]. eapply para_ok; eassumption.
Qed.

(* ---- all lines ---- *)
Lemma readLine_split ins : forall l r, readLine ins = (l, r) -> ins = l ++ r /\ (ins <> [] -> l <> []) /\ ((exists x, l = x ++ [10] /\ ~ In 10 x) \/ ~ In 10 l /\ r = []).
Proof.
  induction ins as [|c ins IH]; intros l r E; cbn [readLine] in E.
  - injection E as <- <-. split; [reflexivity|]. split; [congruence|right; split; [intros []|reflexivity]].
  - destruct (Z.eqb_spec c 10) as [->|N]; [injection E as <- <-; split; [reflexivity|]; split; [discriminate|left; exists []; split; [reflexivity|intros []]]|].
    destruct (readLine ins) as [l1 r1]. injection E as <- <-. destruct (IH l1 r1 eq_refl) as (-> & _ & H). split; [reflexivity|]. split; [discriminate|].
    destruct H as [(x & -> & Hx)|(Hl & ->)]; [left; exists (c :: x); split; [reflexivity|intros [->|K]; [contradiction|auto]]|right; split; [intros [->|K]; [contradiction|auto]|reflexivity]].
Qed.
Fixpoint doesAll (v : V) (es : list entry) (v' : V) : Prop :=
  match es with [] => v' = v | e :: es => exists v1, does v e v1 /\ doesAll v1 es v' end.
Fixpoint rising (L : nat) (es : list entry) : Prop := match es with [] => True | e :: es => (L <= nextL L e)%nat /\ rising (nextL L e) es end.
Lemma lines_ok fuel : forall L p src p', okL L p -> parseLines fuel p src = Some p' ->
  exists ls es, linesOf src ls /\ Forall2 entryOf ls es /\ doesAll (view (nodes p)) es (view (nodes p')) /\ rising L es.
Proof.
  induction fuel as [|fuel IH]; intros L p src p' O E; cbn [parseLines] in E; [discriminate|]. destruct (readLine src) as [line src2] eqn:R. destruct (readLine_split _ _ _ R) as (Es & Hn & Hl). destruct line as [|c line].
  - injection E as <-. assert (src = []) as -> by (destruct src; [reflexivity|exfalso; apply Hn; [discriminate|reflexivity]]). exists [], []. repeat split; constructor.
  - destruct (parseLine p (c :: line)) as [p1|] eqn:P; [|discriminate]. destruct (line_ok L p _ p1 O P) as (e & E1 & E2 & E3 & E4). destruct (IH _ _ _ _ E3 E) as (ls & es & F1 & F2 & F3 & F4). exists ((c :: line) :: ls), (e :: es).
    split; [|split; [constructor; assumption|split; [exists (view (nodes p1)); auto|split; assumption]]]. subst src. destruct Hl as [(x & -> & Hx)|(Hx & ->)].
    + rewrite <- app_assoc. constructor; assumption.
    + rewrite app_nil_r. inversion F1 as [|l0 A1 A2|l0 s0 ls0 A1 A2 A3]; subst; [constructor; [discriminate|exact Hx]|congruence|destruct l0; discriminate].
Qed.
