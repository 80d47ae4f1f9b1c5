(* Proofs that written Markdown documents are read back. *)
From Coq Require Import Lia ZifyBool ZifyNat String.
From Verif Require Import MarkdownBlockSpec MarkdownLayoutSpec MarkdownProofs MarkdownBlocks MarkdownTree StringViewProofs NumTextProofs.
Local Open Scope list_scope.
Local Notation length := List.length.
Local Notation "'do' p <- m ; k" := (match m with Some p => k | None => None end) (at level 200, p pattern, m at level 100, k at level 200).

(* ---- lines ---- *)
Definition solid (c : list Z) : Prop := exists x, In x c /\ ~ white x.
Lemma solid_trim c : solid c -> trim c <> [].
Proof.
  intros (x & I & N) E. destruct (trim_split c) as (a & b & Ec & A & B). rewrite E in Ec. cbn in Ec. rewrite Ec in I. apply in_app_iff in I. rewrite Forall_forall in A, B. destruct I as [I|I]; [apply N, A, I|apply N, B, I].
Qed.
Lemma solid_skip c : forall o n, solid c -> solid (rest (skipBlanks c o n)).
Proof.
  induction c as [|y c IH]; intros o n (x & I & N); [destruct I|]. cbn [skipBlanks]. destruct I as [->|I].
  - unfold white in N. replace (x =? 32) with false by lia. replace (x =? 9) with false by lia. exists x. split; [left; reflexivity|exact N].
  - destruct (y =? 32); [apply IH; exists x; auto|]. destruct (y =? 9); [apply IH; exists x; auto|]. exists x. split; [right; exact I|exact N].
Qed.
Definition firm (c : list Z) : Prop := exists x r, c = x :: r /\ ~ white x.
Lemma firm_solid c : firm c -> solid c. Proof. intros (x & r & -> & N). exists x. split; [left; reflexivity|exact N]. Qed.
Lemma firm_skip c o n : firm c -> skipBlanks c o n = mklc c o n.
Proof. intros (x & r & -> & N). cbn. unfold white in N. replace (x =? 32) with false by lia. replace (x =? 9) with false by lia. reflexivity. Qed.
Lemma pre_S d : pre (S d) = [62; 32] ++ pre d. Proof. reflexivity. Qed.
Lemma pre_end d : pre (S d) = pre d ++ [62; 32].
Proof. induction d as [|d IH]; [reflexivity|]. rewrite pre_S, IH at 1. rewrite pre_S, <- app_assoc. reflexivity. Qed.
Definition quotes (ns : list node) (qs : list nat) : Prop := Forall (fun q => typeOf ns q = Some BlockQuote) qs.
Lemma match_quotes ns qs : quotes ns qs -> forall more c keep o, matchLoop ns (qs ++ more) keep (mklc (pre (length qs) ++ c) o o) = matchLoop ns more (keep + length qs) (mklc c (o + 2 * length qs) (o + 2 * length qs)).
Proof.
  induction 1 as [|q qs Hq Hqs IH]; intros more c keep o; [cbn [length pre repeat concat app]; rewrite !Nat.add_0_r; reflexivity|].
  cbn [length app]. rewrite pre_S. cbn [matchLoop]. unfold consumeAll. cbn [rest outerIndent Nat.add indent app skipBlanks Z.eqb]. cbn. unfold typeOf in Hq. destruct (nth_error ns q) as [n|]; [|discriminate]. cbn in Hq. injection Hq as ->. unfold innerIndent. cbn [rest outerIndent indent]. rewrite Nat.leb_refl, Nat.sub_diag. cbn [Nat.leb].
  unfold eatQuote, consumeSpaceOrTab, setOuter. cbn [rest outerIndent indent Z.eqb Pos.eqb]. rewrite IH. f_equal; [lia|]. f_equal; lia.
Qed.
Definition spine (ns : list node) (d : nat) (st : list nat) : Prop := typeOf ns 0 = Some Document /\ exists qs, st = 0%nat :: qs /\ length qs = d /\ quotes ns qs.
(** A line with text: the quotes are matched. *)
Lemma enter p d st c : spine (nodes p) d st -> blockNodes p = st -> solid c ->
  parseLine p (pre d ++ c) = do (p, k) <- parseNewMarkers (S (length (rest (skipBlanks c (2 * d) (2 * d))))) p (skipBlanks c (2 * d) (2 * d)); parseParagraphText p (pre d ++ c) k.
Proof.
  intros (_ & qs & -> & <- & Q) B S. unfold parseLine, matchExistingIndentation. rewrite B. cbn [skipn]. rewrite <- (app_nil_r qs) at 1. rewrite (match_quotes _ _ Q). cbn [matchLoop Nat.add]. unfold consumeAll. cbn [rest outerIndent indent].
  pose proof (solid_trim _ (solid_skip c (2 * length qs) (2 * length qs) S)) as T. cbn [Nat.mul Nat.add] in *. destruct (trim (rest (skipBlanks c _ _))) as [|t0 t]; [contradiction|]. unfold cutStack. rewrite B. cbn [length]. rewrite Nat.ltb_irrefl. reflexivity.
Qed.
(** An item that the line does not continue. *)
Lemma enter_item p d st it n c : spine (nodes p) d st -> blockNodes p = st ++ [it] -> nth_error (nodes p) it = Some n -> type n = ListItem -> (0 < indentOrLevel n)%nat -> firm c ->
  parseLine p (pre d ++ c) = parseLine (cutStack p (S d)) (pre d ++ c).
Proof.
  intros Sp B En Tn Ln F. pose proof Sp as (_ & qs & -> & Hd & Q). set (p1 := cutStack p (S d)). assert (E1 : blockNodes p1 = 0%nat :: qs /\ nodes p1 = nodes p).
  { subst p1. unfold cutStack. rewrite B, app_length. cbn [length]. replace (S d <? S (length qs) + 1)%nat with true by lia. cbn [blockNodes nodes]. split; [|reflexivity]. rewrite firstn_app. cbn [length]. replace (S d - S (length qs))%nat with 0%nat by lia. rewrite firstn_all2 by (cbn; lia). apply app_nil_r. }
  destruct E1 as (B1 & N1). rewrite (enter p1 d (0%nat :: qs) c); [|unfold spine; rewrite N1; exact Sp|exact B1|apply firm_solid, F].
  unfold parseLine, matchExistingIndentation. rewrite B. cbn [app skipn]. subst d. rewrite (match_quotes _ _ Q). cbn [matchLoop]. unfold consumeAll. cbn [rest outerIndent indent Nat.add]. rewrite (firm_skip c _ _ F). rewrite En, Tn. unfold innerIndent. cbn [rest outerIndent indent]. rewrite Nat.leb_refl, Nat.sub_diag.
  destruct (indentOrLevel n) as [|lv]; [lia|]. cbn [Nat.leb rest]. pose proof (solid_trim _ (firm_solid _ F)) as T. destruct (trim c) as [|t0 t]; [contradiction|]. cbn [Nat.mul Nat.add]. rewrite ?(firm_skip c _ _ F). cbn [rest]. reflexivity.
Qed.
(** More fuel does not matter. *)
Lemma markers_fuel f1 : forall f2 p k x, (f1 <= f2)%nat -> parseNewMarkers f1 p k = Some x -> parseNewMarkers f2 p k = Some x.
Proof.
  induction f1 as [|f1 IH]; intros f2 p k x L E; [discriminate|]. destruct f2 as [|f2]; [lia|]. cbn [parseNewMarkers] in *. destruct (rest k); [exact E|]. destruct (innerIndent k) as [i|]; [|discriminate]. destruct (4 <=? i)%nat; [exact E|]. destruct (oneMarker p k) as [[[p1 k1]|]|]; [apply IH; [lia|exact E]|exact E|discriminate].
Qed.
Lemma markers_step fuel p r o p1 k1 : r <> [] -> oneMarker p (mklc r o o) = Some (Some (p1, k1)) -> parseNewMarkers (S fuel) p (mklc r o o) = parseNewMarkers fuel p1 (consumeAll k1).
Proof. intros N E. cbn [parseNewMarkers rest]. destruct r; [contradiction|]. unfold innerIndent. cbn [outerIndent indent]. rewrite Nat.leb_refl, Nat.sub_diag. cbn [Nat.leb]. rewrite E. reflexivity. Qed.
Lemma markers_stop fuel p r o : r <> [] -> oneMarker p (mklc r o o) = Some None -> parseNewMarkers (S fuel) p (mklc r o o) = Some (p, mklc r o o).
Proof. intros N E. cbn [parseNewMarkers rest]. destruct r; [contradiction|]. unfold innerIndent. cbn [outerIndent indent]. rewrite Nat.leb_refl, Nat.sub_diag. cbn [Nat.leb]. rewrite E. reflexivity. Qed.
(** A line in a new quote. *)
Definition openQuote (p : parser) (top : nat) : parser :=
  mkp (snd (make (nodes p) (newNode top BlockQuote))) (blockNodes p ++ [length (nodes p)]) (leafNode p) (numBlank p) (checkCont p).
Lemma typeOf_make ns n i ns' j t : make ns n = (i, ns') -> typeOf ns j = Some t -> typeOf ns' j = Some t.
Proof.
  intros M E. unfold typeOf in *. rewrite (make_nth _ _ _ _ j M). destruct (nth_error ns j) as [m|] eqn:N; [|discriminate]. assert (j < length ns)%nat by (apply nth_error_Some; congruence). replace (j =? length ns)%nat with false by lia. destruct (parent n =? j)%nat; exact E.
Qed.
Lemma spine_open p d st top : spine (nodes p) d st -> spine (nodes (openQuote p top)) (S d) (st ++ [length (nodes p)]).
Proof.
  intros (D & qs & -> & <- & Q). cbn [openQuote nodes]. destruct (make (nodes p) (newNode top BlockQuote)) as [i ns] eqn:M. cbn [snd]. split; [eapply typeOf_make; eassumption|]. exists (qs ++ [length (nodes p)]). split; [reflexivity|]. split; [rewrite app_length; cbn; lia|].
  apply Forall_app. split; [revert Q; apply Forall_impl; intros q; eapply typeOf_make; exact M|]. constructor; [|constructor]. unfold typeOf. rewrite (make_nth _ _ _ _ _ M), Nat.eqb_refl. reflexivity.
Qed.
Lemma enter_open p d st top c p' : spine (nodes p) d st -> blockNodes p = st -> hd_error (rev st) = Some top -> solid c ->
  parseLine (openQuote p top) (pre (S d) ++ c) = Some p' -> parseLine p (pre (S d) ++ c) = Some p'.
Proof.
  intros Sp B Tp S E. rewrite (enter _ (Datatypes.S d) (st ++ [length (nodes p)]) c (spine_open _ _ _ _ Sp)) in E; [|cbn; rewrite B; reflexivity|exact S].
  rewrite pre_end, <- app_assoc in E |- *. rewrite (enter p d st); [|exact Sp|exact B|exists 62; split; [left; reflexivity|unfold white; lia]].
  set (k := skipBlanks c (2 * Datatypes.S d) (2 * Datatypes.S d)) in *. destruct (parseNewMarkers (Datatypes.S (length (rest k))) (openQuote p top) k) as [[p1 k1]|] eqn:M; [|discriminate].
  assert (F : firm ([62; 32] ++ c)) by (exists 62, (32 :: c); split; [reflexivity|unfold white; lia]). rewrite (firm_skip _ _ _ F). cbn [rest].
  assert (O : oneMarker p (mklc (62 :: 32 :: c) (2 * d) (2 * d)) = Some (Some (openQuote p top, mklc c (2 * Datatypes.S d) (2 * Datatypes.S d)))).
  { unfold oneMarker. cbn [rest]. change (isWhite 62) with false. cbn [Z.eqb Pos.eqb]. rewrite B, Tp. unfold openQuote. destruct (make (nodes p) (newNode top BlockQuote)) as [q ns] eqn:Mk. destruct (make_length _ _ _ _ Mk) as (_ & ->). cbn [snd]. rewrite B. unfold eatQuote, consumeSpaceOrTab, setOuter. cbn [rest outerIndent indent Z.eqb Pos.eqb]. repeat f_equal; lia. }
  rewrite (markers_step _ p ([62; 32] ++ c) (2 * d) _ _ ltac:(discriminate) O). assert (C : consumeAll (mklc c (2 * Datatypes.S d) (2 * Datatypes.S d)) = k) by reflexivity. rewrite C. rewrite (markers_fuel (Datatypes.S (length (rest k))) _ _ _ (p1, k1)); [exact E| |exact M].
  assert (L : forall c o n, (length (rest (skipBlanks c o n)) <= length c)%nat). { clear. induction c as [|y c IH]; intros o n; cbn [skipBlanks]; [reflexivity|]. destruct (y =? 32); [specialize (IH o (Datatypes.S n)); cbn; lia|]. destruct (y =? 9); [specialize (IH o (tabStop n)); cbn; lia|]. reflexivity. }
  specialize (L c (2 * Datatypes.S d)%nat (2 * Datatypes.S d)%nat). fold k in L. cbn [length app]. lia.
Qed.

(* ---- the blocks that are made ---- *)
Definition norm (n : node) : node := mkn (type n) (parent n) (indentOrLevel n) (listStartNumber n) (listPunc n) false (isLoose n) [] (rawLines n).
Definition rows (ns : list node) : list node := map norm ns.
Lemma rows_length ns : length (rows ns) = length ns. Proof. apply map_length. Qed.
Lemma rows_nth ns i : nth_error (rows ns) i = option_map norm (nth_error ns i). Proof. apply nth_error_map. Qed.
Lemma rows_type ns i : typeOf ns i = option_map type (nth_error (rows ns) i).
Proof. unfold typeOf. rewrite rows_nth. destruct (nth_error ns i); reflexivity. Qed.
Lemma rows_upd f ns : (forall n, norm (f n) = norm n) -> forall i, rows (upd i f ns) = rows ns.
Proof. intros H. induction ns as [|n ns IH]; intros [|i]; cbn [upd rows map]; try reflexivity; f_equal; [apply H|apply IH]. Qed.
Lemma rows_upd1 l' ns : forall i l, nth_error ns i = Some l -> norm l' = norm l -> rows (upd i (fun _ => l') ns) = rows ns.
Proof. induction ns as [|n ns IH]; intros [|i] l E N; cbn [upd rows map nth_error] in *; try discriminate; f_equal; [congruence|eapply IH; eassumption]. Qed.
Lemma rows_make ns n i ns' : make ns n = (i, ns') -> rows ns' = rows ns ++ [norm n].
Proof. intros E. injection E as _ <-. unfold rows. rewrite map_app. f_equal. apply (rows_upd (addKid (length ns))). reflexivity. Qed.
Lemma rows_raw ls ns R r : rows ns = R ++ [r] -> rows (upd (length R) (addRaw ls) ns) = R ++ [addRaw ls r].
Proof.
  revert ns. induction R as [|x R IH]; intros [|n ns] E; cbn [rows map app length upd] in *; try discriminate E; injection E as E1 E2; [|f_equal; [exact E1|apply IH, E2]].
  destruct ns; [|discriminate E2]. subst r. reflexivity.
Qed.
Lemma rows_spine ns ns' d st X : rows ns' = rows ns ++ X -> spine ns d st -> spine ns' d st.
Proof.
  intros E. assert (K : forall i t, typeOf ns i = Some t -> typeOf ns' i = Some t).
  { intros i t H. rewrite rows_type in *. rewrite E. destruct (nth_error (rows ns) i) as [n|] eqn:N; [|discriminate]. rewrite nth_error_app1 by (apply nth_error_Some; congruence). rewrite N. exact H. }
  intros (D & qs & A & B & C). split; [apply K, D|]. exists qs. split; [exact A|]. split; [exact B|]. revert C. apply Forall_impl. intros q. apply K.
Qed.
Lemma rows_leaf p p' t : rows (nodes p') = rows (nodes p) -> leafNode p' = leafNode p -> isLeaf p' t = isLeaf p t.
Proof. intros E L. unfold isLeaf. rewrite L. destruct (leafNode p); [|reflexivity]. rewrite !rows_type, E. reflexivity. Qed.

(** Quotes are not lists: nothing is marked. *)
Lemma mark_spine f ns d st : spine ns d st -> markLists f ns st = Some (ns, false).
Proof.
  intros (D & qs & -> & _ & Q). cbn [markLists]. unfold typeOf in D. destruct (nth_error ns 0) as [n|]; [|discriminate]. injection D as ->.
  induction Q as [|q qs Hq Q IH]; [reflexivity|]. cbn [markLists]. unfold typeOf in Hq. destruct (nth_error ns q) as [m|]; [|discriminate]. injection Hq as ->. exact IH.
Qed.
Lemma mark_item f ns d st it n l : spine ns d st -> nth_error ns it = Some n -> type n = ListItem -> nth_error ns (parent n) = Some l -> type l = List_ ->
  markLists f ns (st ++ [it]) = match f l with Some l' => Some (upd (parent n) (fun _ => l') ns, true) | None => Some (ns, false) end.
Proof.
  intros (D & qs & -> & _ & Q) En Tn El Tl. cbn [app markLists]. unfold typeOf in D. destruct (nth_error ns 0) as [n0|]; [|discriminate]. injection D as ->.
  induction Q as [|q qs Hq Q IH]; [cbn [app markLists]; rewrite En, Tn, El, Tl; destruct (f l); reflexivity|]. cbn [app markLists]. unfold typeOf in Hq. destruct (nth_error ns q) as [m|]; [|discriminate]. injection Hq as ->. exact IH.
Qed.

(* ---- children ---- *)
Fixpoint kidsFrom (o : nat) (R : list node) (x : nat) : list nat :=
  match R with
  | [] => []
  | r :: R => (if (parent r =? x)%nat then [o] else []) ++ kidsFrom (S o) R x
  end.
Lemma kidsFrom_app R1 : forall o R2 x, kidsFrom o (R1 ++ R2) x = kidsFrom o R1 x ++ kidsFrom (o + length R1) R2 x.
Proof. induction R1 as [|r R1 IH]; intros o R2 x; cbn [app kidsFrom length]; [rewrite Nat.add_0_r; reflexivity|]. rewrite IH, app_assoc. replace (S o + length R1)%nat with (o + S (length R1))%nat by lia. reflexivity. Qed.
Lemma kidsFrom_none R : forall o x, Forall (fun r => parent r <> x) R -> kidsFrom o R x = [].
Proof. induction R as [|r R IH]; intros o x H; [reflexivity|]. inversion H; subst. cbn [kidsFrom]. destruct (Nat.eqb_spec (parent r) x); [contradiction|]. apply IH. assumption. Qed.
Lemma kids_rows ns x n : tree ns -> nth_error ns x = Some n -> kids n = kidsFrom 1 (tl (rows ns)) x.
Proof.
  intros (T0 & T1 & _) E. rewrite (T1 _ _ E). unfold kidsOf. destruct ns as [|n0 ns]; [destruct x; discriminate|]. cbn [length rows map tl]. replace (S (length ns) - 1)%nat with (length ns) by lia. clear.
  change (n0 :: ns) with ([n0] ++ ns). change 1%nat with (length [n0]). generalize [n0] as A. induction ns as [|n ns IH]; intros A; [reflexivity|]. cbn [length seq filter map kidsFrom]. rewrite nth_error_app2, Nat.sub_diag by lia. cbn [nth_error]. change (parent (norm n)) with (parent n).
  specialize (IH (A ++ [n])). rewrite <- app_assoc in IH. cbn [app] in IH. replace (length (A ++ [n])) with (S (length A)) in IH by (rewrite app_length; cbn; lia). rewrite IH. destruct (parent n =? x)%nat; reflexivity.
Qed.
Definition kindN (r : node) : option (bool * Z) := match type r with List_ => Some (0 <=? listStartNumber r, listPunc r) | _ => None end.
Definition lastKid (R : list node) (x : nat) : option nat := hd_error (rev (kidsFrom 1 (tl R) x)).
Definition lastKind (R : list node) (x : nat) : option (bool * Z) := do j <- lastKid R x; do r <- nth_error R j; kindN r.
Lemma lastKid_app R r X x : R <> [] -> parent r = x -> Forall (fun r => parent r <> x) X -> lastKid (R ++ r :: X) x = Some (length R).
Proof.
  intros N P F. unfold lastKid. destruct R as [|r0 R]; [contradiction|]. cbn [app tl]. rewrite kidsFrom_app. cbn [kidsFrom]. rewrite P, Nat.eqb_refl, (kidsFrom_none X) by exact F. rewrite app_nil_r, rev_app_distr. cbn. f_equal. 
Qed.
Lemma lastKid_skip R X x : R <> [] -> Forall (fun r => parent r <> x) X -> lastKid (R ++ X) x = lastKid R x.
Proof. intros N F. unfold lastKid. destruct R as [|r0 R]; [contradiction|]. cbn [app tl]. rewrite kidsFrom_app, (kidsFrom_none X) by exact F. rewrite app_nil_r. reflexivity. Qed.

Definition kindOf (m : mark) : bool * Z := match m with Bullet c => (false, c) | Number _ p => (true, p) end.
Lemma fold_pos ds : forall n, Forall digit ds -> 0 <= n -> 0 <= fold_left (fun n c => n * 10 + (c - 48)) ds n.
Proof. induction ds as [|c ds IH]; intros n F H; [exact H|]. inversion F as [|? ? Hc Hr]; subst. cbn [fold_left]. apply IH; [exact Hr|]. unfold digit in Hc. lia. Qed.
Lemma start_kind m : markOk m -> (0 <=? startOf m) = fst (kindOf m).
Proof. destruct m as [c|ds p]; cbn; intros H; [reflexivity|]. destruct H as (H & _). pose proof (fold_pos ds 0 H ltac:(lia)). unfold numberOf. lia. Qed.
Lemma same_kind a b : sameKind a b <-> kindOf a = kindOf b.
Proof. destruct a, b; cbn; split; try contradiction; try congruence; intros H; injection H; auto. Qed.
Definition listRow (par : nat) (m : mark) : node := mkn List_ par 0 (startOf m) (snd (kindOf m)) false false [] [].
Definition width (d : nat) (m : mark) : nat := (2 * d + S (length (markText m)))%nat.
Definition itemRow (l d : nat) (m : mark) : node := mkn ListItem l (width d m) 0 45 false false [] [].

Section Got.
Context (p : parser) (d : nat) (st : list nat) (top : nat).
Hypothesis G : good p.
Hypothesis B : blockNodes p = st.
Hypothesis Sp : spine (nodes p) d st.
Hypothesis Tp : hd_error (rev st) = Some top.
Lemma top_type : exists n, nth_error (nodes p) top = Some n /\ (type n = Document \/ type n = BlockQuote).
Proof.
  destruct Sp as (D & qs & E & _ & Q). assert (I : In top st) by (apply in_rev; destruct (rev st); [discriminate|]; injection Tp as ->; left; reflexivity). rewrite E in I. destruct I as [<-|I].
  - unfold typeOf in D. destruct (nth_error (nodes p) 0) as [n|]; [|discriminate]. injection D as D. exists n. auto.
  - unfold quotes in Q. rewrite Forall_forall in Q. specialize (Q top I). unfold typeOf in Q. destruct (nth_error (nodes p) top) as [n|]; [|discriminate]. injection Q as Q. exists n. auto.
Qed.
Lemma got_eq level num punc : exists ctr, nth_error (nodes p) top = Some ctr /\
  gotListMarker p level num punc =
  let (listNode, ns) := match lastKid (rows (nodes p)) top with
    | Some j => match lastKind (rows (nodes p)) top with Some (o, q) => if Bool.eqb o (0 <=? num) && (q =? punc) then (j, nodes p) else make (nodes p) (mkn List_ top 0 num punc false false [] []) | None => make (nodes p) (mkn List_ top 0 num punc false false [] []) end
    | None => make (nodes p) (mkn List_ top 0 num punc false false [] []) end in
  let (item, ns) := make ns (mkn ListItem listNode level 0 45 false false [] []) in
  Some (mkp ns (blockNodes p ++ [item]) None 0 (checkCont p)).
Proof.
  destruct top_type as (ctr & Ec & Tc). exists ctr. split; [exact Ec|]. unfold gotListMarker. rewrite B, Tp, Ec. pose proof (kids_rows _ _ _ (proj1 G) Ec) as K. unfold lastKind, lastKid. rewrite <- K.
  assert (Kb : forall j, In j (kids ctr) -> exists l, nth_error (nodes p) j = Some l).
  { intros j I. rewrite (proj1 (proj2 (proj1 G)) _ _ Ec) in I. unfold kidsOf in I. apply filter_In in I. destruct I as (_ & I). destruct (nth_error (nodes p) j); [eauto|discriminate]. }
  destruct (rev (kids ctr)) as [|j r] eqn:Er; cbn [hd_error].
  - destruct Tc as [-> | ->]; reflexivity.
  - destruct (Kb j) as (l & El); [apply in_rev; rewrite Er; left; reflexivity|]. rewrite rows_nth, El. cbn [option_map]. unfold kindN. cbn [norm type listStartNumber listPunc]. destruct Tc as [-> | ->]; (destruct (type l) eqn:Tl; cbn [ntype_eqb andb]; try reflexivity); unfold isOrderedList; rewrite Tl; (destruct (_ && _); reflexivity).
Qed.
Lemma got_new level m : markOk m -> lastKind (rows (nodes p)) top <> Some (kindOf m) ->
  exists p' l, gotListMarker p level (startOf m) (snd (kindOf m)) = Some p' /\ rows (nodes p') = rows (nodes p) ++ [listRow top m; mkn ListItem (length (nodes p)) level 0 45 false false [] []] /\
    blockNodes p' = st ++ [S (length (nodes p))] /\ leafNode p' = None /\ numBlank p' = 0%nat /\ checkCont p' = checkCont p /\
    nth_error (nodes p') (length (nodes p)) = Some l /\ type l = List_ /\ isLooseIfContinued l = false.
Proof.
  intros Mk N. destruct (got_eq level (startOf m) (snd (kindOf m))) as (ctr & _ & ->). set (L := mkn List_ top 0 (startOf m) (snd (kindOf m)) false false [] []).
  match goal with |- context [let (_, _) := ?X in _] => assert (E : X = make (nodes p) L) end.
  { destruct (lastKid (rows (nodes p)) top); [|reflexivity]. destruct (lastKind (rows (nodes p)) top) as [[o q]|]; [|reflexivity]. rewrite (start_kind _ Mk). destruct (Bool.eqb o (fst (kindOf m)) && (q =? snd (kindOf m))) eqn:C; [|reflexivity]. exfalso. apply N. apply andb_prop in C. destruct C as (C1 & C2). apply Bool.eqb_prop in C1. apply Z.eqb_eq in C2. subst. destruct (kindOf m); reflexivity. }
  rewrite E. destruct (make (nodes p) L) as [ln ns1] eqn:M1. destruct (make_length _ _ _ _ M1) as (L1 & ->). set (I := mkn ListItem (length (nodes p)) level 0 45 false false [] []). destruct (make ns1 I) as [it ns2] eqn:M2. destruct (make_length _ _ _ _ M2) as (L2 & ->).
  exists (mkp ns2 (blockNodes p ++ [length ns1]) None 0 (checkCont p)), (addKid (length ns1) L). cbn [nodes blockNodes leafNode numBlank checkCont]. split; [reflexivity|]. split; [rewrite (rows_make _ _ _ _ M2), (rows_make _ _ _ _ M1), <- app_assoc; reflexivity|].
  rewrite B, L1. do 4 (split; [reflexivity|]). rewrite (make_nth _ _ _ _ (length (nodes p)) M2). replace (length (nodes p) =? length ns1)%nat with false by lia. cbn [parent I]. rewrite Nat.eqb_refl, (make_nth _ _ _ _ (length (nodes p)) M1), Nat.eqb_refl. cbn [option_map]. rewrite L1. auto.
Qed.
Lemma got_next level m j : markOk m -> lastKid (rows (nodes p)) top = Some j -> lastKind (rows (nodes p)) top = Some (kindOf m) ->
  exists p', gotListMarker p level (startOf m) (snd (kindOf m)) = Some p' /\ rows (nodes p') = rows (nodes p) ++ [mkn ListItem j level 0 45 false false [] []] /\
    blockNodes p' = st ++ [length (nodes p)] /\ leafNode p' = None /\ numBlank p' = 0%nat /\ checkCont p' = checkCont p.
Proof.
  intros Mk J K. destruct (got_eq level (startOf m) (snd (kindOf m))) as (ctr & _ & ->). rewrite J, K, (start_kind _ Mk). destruct (kindOf m) as [o q] eqn:Km. cbn [fst snd]. rewrite Bool.eqb_reflx, Z.eqb_refl. cbn [andb].
  destruct (make (nodes p) (mkn ListItem j level 0 45 false false [] [])) as [it ns2] eqn:M2. destruct (make_length _ _ _ _ M2) as (L2 & ->). exists (mkp ns2 (blockNodes p ++ [length (nodes p)]) None 0 (checkCont p)). cbn [nodes blockNodes leafNode numBlank checkCont]. split; [reflexivity|]. rewrite (rows_make _ _ _ _ M2), B. auto 6.
Qed.
End Got.

(* ---- markers ---- *)
Lemma digits_denote ds : Forall digit ds -> denotes 10 ds (numberOf ds).
Proof.
  induction ds as [|c ds IH] using rev_ind; intros F; [constructor|]. apply Forall_app in F. destruct F as (F1 & F2). inversion F2 as [|? ? Hc _]; subst. unfold numberOf in *. rewrite fold_left_app. cbn [fold_left]. constructor; [apply IH, F1|left; unfold digit in Hc; lia|unfold digit in Hc; lia].
Qed.
Lemma digits_bound ds : Forall digit ds -> numberOf ds < 10 ^ Z.of_nat (length ds).
Proof.
  induction ds as [|c ds IH] using rev_ind; intros F; [cbn; lia|]. apply Forall_app in F. destruct F as (F1 & F2). inversion F2 as [|? ? Hc _]; subst. specialize (IH F1). unfold numberOf in *. rewrite fold_left_app, app_length. cbn [fold_left length]. rewrite Nat2Z.inj_add, Z.pow_add_r by lia. change (10 ^ Z.of_nat 1) with 10. unfold digit in Hc. lia.
Qed.
Lemma nodigit c : ~ digit c -> c < 58 -> not_digit 10 c.
Proof. intros N L x H. unfold digit in N. destruct H as [H|[H|H]]; lia. Qed.
Lemma digits_split t : exists ds u, t = ds ++ u /\ Forall digit ds /\ match u with [] => True | c :: _ => ~ digit c end.
Proof.
  induction t as [|c t IH]; [exists [], []; repeat split; constructor|]. destruct ((48 <=? c) && (c <=? 57)) eqn:E.
  - destruct IH as (ds & u & -> & F & U). exists (c :: ds), u. split; [reflexivity|]. split; [constructor; [unfold digit; lia|exact F]|exact U].
  - exists [], (c :: t). split; [reflexivity|]. split; [constructor|unfold digit; lia].
Qed.
Lemma nodigit' c : ~ digit c -> not_digit 10 c.
Proof. intros N x H. unfold digit in N. destruct H as [H|[H|H]]; lia. Qed.
Lemma blank_dec b : (b =? 32) = false -> (b =? 9) = false -> ~ (b = 32 \/ b = 9). Proof. lia. Qed.
Lemma after_none p r o ind : (forall b u, r = b :: u -> ~ (b = 32 \/ b = 9)) -> afterMarker p (r ++ [10]) o ind = None.
Proof.
  intros H. unfold afterMarker, consumeSpaceOrTab. cbn [rest]. destruct r as [|b u]; [reflexivity|]. cbn [app]. specialize (H b u eq_refl). replace (b =? 32) with false by lia. replace (b =? 9) with false by lia. reflexivity.
Qed.
Lemma no_marker p t o : textLine t -> oneMarker p (mklc (t ++ [10]) o o) = Some None.
Proof.
  intros ((c & e & H1 & H2 & W & _) & N10 & Sp). unfold oneMarker. cbn [rest outerIndent indent]. destruct t as [|c0 r]; [discriminate|]. injection H1 as ->. cbn [app]. rewrite (proj2 (white_not c) W).
  destruct (Z.eqb_spec c 62) as [->|N62]; [exfalso; apply Sp; constructor|]. destruct ((c =? 42) || (c =? 45) || (c =? 43)) eqn:Bu.
  - rewrite after_none; [reflexivity|]. intros b u -> Hb. apply Sp. constructor; [cbn; lia|exact Hb].
  - destruct (isDecimalDigit c) eqn:Dg; [|reflexivity]. destruct (digits_split (c :: r)) as (ds & u & E & F & U). destruct ds as [|c1 ds]; [exfalso; cbn in E; subst u; apply U; unfold isDecimalDigit in Dg; unfold digit; lia|].
    change (c :: r ++ [10]) with ((c :: r) ++ [10]). rewrite E, <- app_assoc. rewrite (parse_u64_digits 10 (c1 :: ds) (numberOf (c1 :: ds)) (u ++ [10]) ltac:(lia) (digits_denote _ F) ltac:(discriminate)) by (destruct u as [|x u]; [apply nodigit'; unfold digit; lia|apply nodigit', U]).
    set (num := if numberOf (c1 :: ds) <? 2 ^ 64 then _ else _). assert (Pr : prest num = u ++ [10]) by (subst num; destruct (_ <? _); reflexivity). rewrite Pr. rewrite (app_length (c1 :: ds) (u ++ [10])). match goal with |- (if ?b then _ else _) = _ => destruct b eqn:C; [reflexivity|] end.
    apply orb_false_elim in C. destruct C as (_ & C). destruct u as [|punc u]; [reflexivity|]. cbn [app]. destruct (u ++ [10]) as [|x y] eqn:Eu; [destruct u; discriminate Eu|]. rewrite <- Eu. destruct ((punc =? 46) || (punc =? 41)) eqn:Pu; [|reflexivity].
    rewrite after_none; [reflexivity|]. intros b v -> Hb. apply Sp. rewrite E. constructor; [exact F|cbn [length app] in C; rewrite app_length in C; cbn [length] in *; lia|lia|exact Hb].
Qed.
Lemma no_heading t c r : textLine t -> t = c :: r -> c = 35 -> heading (t ++ [10]) = None.
Proof.
  intros (Hg & N10 & Sp) -> ->. unfold heading. assert (S : exists n u, 35 :: r = repeat 35 n ++ u /\ (1 <= n)%nat /\ match u with [] => True | x :: _ => x <> 35 end).
  { clear. induction r as [|x r (n & u & E & L & U)]; [exists 1%nat, []; auto|]. destruct (Z.eq_dec x 35) as [->|N]; [|exists 1%nat, (x :: r); auto]. exists (S n), u. split; [cbn [repeat app]; rewrite <- E; reflexivity|]. split; [lia|exact U]. }
  destruct S as (n & u & E & Ln & U). rewrite E in *. rewrite <- app_assoc.
  assert (Sn : forall n v, match v with [] => True | x :: _ => x <> 35 end -> span (fun c => c =? 35) (repeat 35 n ++ v) = (repeat 35 n, v)).
  { clear. intros n v V. induction n as [|n IH]; cbn [repeat app span]; [destruct v as [|x v]; [reflexivity|]; cbn [span]; replace (x =? 35) with false by lia; reflexivity|]. rewrite IH. reflexivity. }
  rewrite Sn by (destruct u; [cbn; lia|exact U]). rewrite repeat_length. destruct (Nat.leb_spec n 6) as [L6|]; [|destruct (span isWhite (u ++ [10])); reflexivity].
  destruct u as [|x u]; [exfalso; apply Sp; rewrite app_nil_r; constructor; lia|]. cbn [app span]. destruct (isWhite x) eqn:Wx; [exfalso; apply Sp; constructor; [lia|apply white_iff, Wx]|]. reflexivity.
Qed.
Lemma text_firm t : textLine t -> firm (t ++ [10]).
Proof. intros ((c & e & H1 & _ & W & _) & _). destruct t as [|x t]; [discriminate|]. injection H1 as ->. exists c, (t ++ [10]). split; [reflexivity|exact W]. Qed.
Lemma hugs_trim t w : hugs t -> Forall white w -> trim (t ++ w) = t.
Proof.
  intros (c & e & H1 & H2 & Wc & We) Hw. destruct (sv_trim_spec isWhite (t ++ w)) as (a & b & E & A & B & H3 & H4). fold (trim (t ++ w)) in E, H3, H4. destruct t as [|c0 t]; [discriminate|]. injection H1 as ->.
  destruct a as [|x a]; [|exfalso; cbn [app] in E; injection E as <- _; inversion A; subst; apply Wc, white_iff; assumption]. cbn [app] in E.
  destruct (hd_rev_snoc _ _ H2) as (t1 & Et). assert (L : forall (X : list Z) b Y w, X ++ b = Y ++ w -> (forall y m, X = m ++ [y] -> isWhite y = false) -> (forall y m, Y = m ++ [y] -> isWhite y = false) -> Forall (fun c => isWhite c = true) b -> Forall (fun c => isWhite c = true) w -> X = Y).
  { clear. intros X b. induction b as [|x b IH] using rev_ind; intros Y w E HX HY Fb Fw.
    - rewrite app_nil_r in E. subst X. destruct w as [|x w] using rev_ind; [rewrite app_nil_r; reflexivity|]. exfalso. apply Forall_app in Fw. destruct Fw as (_ & Fw). inversion Fw as [|? ? W _]; subst. rewrite (HX x (Y ++ w)) in W; [discriminate|]. apply app_assoc.
    - destruct w as [|y w _] using rev_ind.
      + exfalso. rewrite app_nil_r in E. subst Y. apply Forall_app in Fb. destruct Fb as (_ & Fb). inversion Fb as [|? ? W _]; subst. rewrite (HY x (X ++ b)) in W; [discriminate|]. apply app_assoc.
      + rewrite !app_assoc in E. apply app_inj_tail in E. destruct E as (E & <-). apply Forall_app in Fb. apply Forall_app in Fw. eapply IH; [exact E|exact HX|exact HY|apply Fb|apply Fw]. }
  symmetry. apply (L (c :: t) w (trim ((c :: t) ++ w)) b E); [|intros y m Em; apply (H4 y m), Em| |exact B].
  - intros y m Em. rewrite Et in Em. apply app_inj_tail in Em. destruct Em as (_ & <-). apply white_not, We.
  - revert Hw. apply Forall_impl. intros y. apply white_iff.
Qed.
Lemma nl_white : Forall white [10]. Proof. constructor; [unfold white; auto|constructor]. Qed.
Lemma after_some p t o ind : textLine t -> afterMarker p (32 :: t ++ [10]) o ind = Some (mklc (t ++ [10]) (S ind) (S ind)).
Proof.
  intros H. unfold afterMarker, consumeSpaceOrTab. cbn [rest Z.eqb Pos.eqb outerIndent indent]. rewrite (hugs_trim t [10] (proj1 H) nl_white). destruct t as [|c t]; [destruct H as ((c & e & H1 & _) & _); discriminate H1|]. destruct (leafNode p); reflexivity.
Qed.
Lemma a_marker p m t o : markOk m -> textLine t -> leafNode p = None \/ startOf m = -1 \/ startOf m = 1 ->
  oneMarker p (mklc (markText m ++ 32 :: t ++ [10]) o o) =
  do p <- gotListMarker p (o + S (length (markText m))) (startOf m) (snd (kindOf m)); Some (Some (p, mklc (t ++ [10]) (o + S (length (markText m))) (o + S (length (markText m))))).
Proof.
  intros Mk Ht Lf. unfold oneMarker. cbn [rest outerIndent indent]. destruct m as [c|ds q].
  - cbn [markText app length startOf kindOf snd]. cbn in Mk. assert (C : c = 42 \/ c = 43 \/ c = 45) by lia. replace (isWhite c) with false by (unfold isWhite; lia). replace (c =? 62) with false by lia. replace ((c =? 42) || (c =? 45) || (c =? 43)) with true by lia. rewrite after_some by exact Ht. cbn [outerIndent]. replace (o + 2)%nat with (S (S o)) by lia. reflexivity.
  - destruct Mk as (F & L & P). pose proof (digits_bound ds F) as Bd. assert (Bp : 10 ^ Z.of_nat (length ds) <= 10 ^ 9) by (apply Z.pow_le_mono_r; lia). cbn [markText startOf kindOf snd] in *. destruct ds as [|c ds]; [cbn in L; lia|]. inversion F as [|? ? Hc Fr]; subst. unfold digit in Hc. rewrite <- app_assoc. cbn [app].
    replace (isWhite c) with false by (unfold isWhite; lia). replace (c =? 62) with false by lia. replace ((c =? 42) || (c =? 45) || (c =? 43)) with false by lia. replace (isDecimalDigit c) with true by (unfold isDecimalDigit; lia).
    change (c :: ds ++ q :: 32 :: t ++ [10]) with ((c :: ds) ++ q :: 32 :: t ++ [10]). assert (Q : q = 46 \/ q = 41) by (cbn in P; lia).
    rewrite (parse_u64_digits 10 (c :: ds) (numberOf (c :: ds)) (q :: 32 :: t ++ [10]) ltac:(lia) (digits_denote _ F) ltac:(discriminate)) by (apply nodigit'; unfold digit; lia). replace (numberOf (c :: ds) <? 2 ^ 64) with true by lia. cbn [prest pval]. rewrite (app_length (c :: ds) (q :: 32 :: t ++ [10])). rewrite Nat.add_sub.
    pose proof (fold_pos (c :: ds) 0 F ltac:(lia)) as Pos. fold (numberOf (c :: ds)) in Pos.
    replace ((match leafNode p with Some _ => negb (numberOf (c :: ds) =? 1) | None => false end) || (9 <? length (c :: ds))%nat) with false by (destruct Lf as [-> |Lf]; [lia|destruct (leafNode p); lia]).
    replace ((q =? 46) || (q =? 41)) with true by lia. rewrite after_some by exact Ht. cbn [outerIndent]. cbn [length]. rewrite app_length. cbn [length]. replace (o + S (S (length ds + 1)))%nat with (S (S (o + S (length ds)))) by lia. reflexivity.
Qed.

(* ---- text ---- *)
Definition paraRow (par : nat) (ls : list (list Z)) : node := mkn Paragraph par 0 0 45 false false [] ls.
Lemma textLine_cons t : textLine t -> exists c r, t = c :: r.
Proof. intros ((c & e & H1 & _) & _). destruct t as [|x t]; [discriminate|eauto]. Qed.
Definition quiet (p : parser) : Prop := checkCont p = false \/ leafNode p = None /\ exists b, markLists nowLoose (nodes p) (blockNodes p) = Some (nodes p, b).
Lemma quiet_eq p : quiet p -> (if checkCont p then match leafNode p with Some _ => None | None => do (ns, _) <- markLists nowLoose (nodes p) (blockNodes p); Some (mkp ns (blockNodes p) None (numBlank p) false) end else Some p) =
  Some (mkp (nodes p) (blockNodes p) (leafNode p) (numBlank p) false).
Proof. intros [H|(H & b & E)]; [rewrite H; destruct p; cbn in *; subst; reflexivity|]. rewrite H, E. destruct p as [ns bn lf nb cc]; cbn in *; subst; destruct cc; reflexivity. Qed.
Lemma para_new p line t o top : textLine t -> hd_error (rev (blockNodes p)) = Some top -> isLeaf p Paragraph = false -> quiet p ->
  exists p', parseParagraphText p line (mklc (t ++ [10]) o o) = Some p' /\ rows (nodes p') = rows (nodes p) ++ [paraRow top [t]] /\
    blockNodes p' = blockNodes p /\ leafNode p' = Some (length (nodes p)) /\ numBlank p' = 0%nat /\ checkCont p' = false.
Proof.
  intros Ht Tp Lf Q. unfold parseParagraphText. cbn [rest]. rewrite (hugs_trim t [10] (proj1 Ht) nl_white), Lf. unfold innerIndent. cbn [outerIndent indent]. rewrite Nat.leb_refl, Nat.sub_diag, Tp. cbn [negb andb Nat.leb]. rewrite (quiet_eq p Q).
  destruct (textLine_cons t Ht) as (c & r & Et). cbn [nodes blockNodes leafNode numBlank checkCont].
  destruct (make (nodes p) (addRaw [t] (newNode top Paragraph))) as [i ns] eqn:M. destruct (make_length _ _ _ _ M) as (_ & ->). exists (mkp ns (blockNodes p) (Some (length (nodes p))) 0 false). cbn [nodes blockNodes leafNode numBlank checkCont].
  split; [|rewrite (rows_make _ _ _ _ M); auto 6]. rewrite Et at 1.
  replace (match t ++ [10] with [] => None | c0 :: _ => _ end) with (Some (mkp ns (blockNodes p) (Some (length (nodes p))) 0 false)); [reflexivity|].
  destruct (t ++ [10]) as [|x y] eqn:E; [rewrite Et in E; discriminate E|]. destruct (Z.eqb_spec x 35) as [->|]; [|reflexivity]. cbn [andb]. rewrite <- E. rewrite (no_heading t 35 r Ht); [reflexivity| |reflexivity]. rewrite Et in E. cbn [app] in E. injection E as E1 _. rewrite Et, E1. reflexivity.
Qed.
Lemma para_more p line t o R r : textLine t -> blockNodes p <> [] -> rows (nodes p) = R ++ [r] -> type r = Paragraph -> leafNode p = Some (length R) -> checkCont p = false ->
  exists p', parseParagraphText p line (mklc (t ++ [10]) o o) = Some p' /\ rows (nodes p') = R ++ [addRaw [t] r] /\
    blockNodes p' = blockNodes p /\ leafNode p' = leafNode p /\ numBlank p' = numBlank p /\ checkCont p' = false.
Proof.
  intros Ht Nb Rw Tr Lf Cc. assert (Lp : isLeaf p Paragraph = true) by (unfold isLeaf; rewrite Lf, rows_type, Rw, nth_error_app2, Nat.sub_diag by lia; cbn; rewrite Tr; reflexivity).
  assert (Tp : exists top, hd_error (rev (blockNodes p)) = Some top). { destruct (rev (blockNodes p)) as [|x y] eqn:E; [exfalso; apply Nb; rewrite <- (rev_involutive (blockNodes p)), E; reflexivity|exists x; reflexivity]. } destruct Tp as (top & Tp).
  unfold parseParagraphText. cbn [rest]. rewrite (hugs_trim t [10] (proj1 Ht) nl_white), Lp. unfold innerIndent. cbn [outerIndent indent]. rewrite Nat.leb_refl, Nat.sub_diag, Tp. cbn [negb andb Nat.leb]. rewrite Cc.
  destruct (textLine_cons t Ht) as (c & r0 & Et). rewrite Lf. exists (mkp (upd (length R) (addRaw [t]) (nodes p)) (blockNodes p) (Some (length R)) (numBlank p) (checkCont p)). cbn [nodes blockNodes leafNode numBlank checkCont].
  split; [|rewrite (rows_raw _ _ _ _ Rw); auto 6]. rewrite Et at 1.
  destruct (t ++ [10]) as [|x y] eqn:E; [rewrite Et in E; discriminate E|]. destruct (Z.eqb_spec x 35) as [->|]; [|rewrite Cc; reflexivity]. cbn [andb]. rewrite <- E. rewrite (no_heading t 35 r0 Ht); [rewrite Cc; reflexivity| |reflexivity]. rewrite Et in E. cbn [app] in E. injection E as E1 _. rewrite Et, E1. reflexivity.
Qed.
Definition headRow (par n : nat) (t : list Z) : node := mkn Heading par n 0 45 false false [] [t].
Lemma heading_of n t : (1 <= n <= 6)%nat -> hugs t -> heading (repeat 35 n ++ [32] ++ t ++ [10]) = Some (n, t ++ [10]).
Proof.
  intros L (c & e & H1 & _ & W & _). unfold heading. assert (S : forall n v, span (fun c => c =? 35) (repeat 35 n ++ 32 :: v) = (repeat 35 n, 32 :: v)) by (clear; intros n v; induction n as [|n IH]; cbn [repeat app span]; [reflexivity|rewrite IH; reflexivity]).
  cbn [app]. rewrite S. cbn [span]. change (isWhite 32) with true. cbv iota. destruct t as [|x t]; [discriminate|]. injection H1 as ->. cbn [app span]. rewrite (proj2 (white_not c) W). cbn [length]. rewrite repeat_length. replace (n <=? 6)%nat with true by lia. reflexivity.
Qed.
Lemma head_new p line n t o top : (1 <= n <= 6)%nat -> hugs t -> hd_error (rev (blockNodes p)) = Some top -> isLeaf p Paragraph = false -> quiet p ->
  exists p', parseParagraphText p line (mklc (repeat 35 n ++ [32] ++ t ++ [10]) o o) = Some p' /\ rows (nodes p') = rows (nodes p) ++ [headRow top n t] /\
    blockNodes p' = blockNodes p /\ leafNode p' = None /\ numBlank p' = numBlank p /\ checkCont p' = false.
Proof.
  intros Ln Ht Tp Lf Q. unfold parseParagraphText. cbn [rest]. unfold innerIndent. cbn [outerIndent indent]. rewrite Nat.leb_refl, Nat.sub_diag, Tp, Lf. cbn [negb andb Nat.leb]. rewrite (quiet_eq p Q).
  assert (Tm : trim (repeat 35 n ++ [32] ++ t ++ [10]) = repeat 35 n ++ [32] ++ t).
  { rewrite !(app_assoc _ t). rewrite !app_assoc. apply hugs_trim; [|apply nl_white]. destruct Ht as (c & e & H1 & H2 & W1 & W2). exists 35, e. split; [destruct n; [lia|reflexivity]|]. split; [|split; [unfold white; lia|exact W2]]. rewrite rev_app_distr. destruct (rev t); [discriminate|exact H2]. }
  rewrite Tm. destruct n as [|n]; [lia|]. cbn [repeat app]. cbn [Z.eqb Pos.eqb andb nodes blockNodes leafNode numBlank checkCont]. pose proof (heading_of (S n) t Ln Ht) as Hh. cbn [repeat app] in Hh. rewrite Hh, (hugs_trim t [10] Ht nl_white).
  destruct t as [|c t]; [destruct Ht as (? & ? & ? & _); discriminate|]. destruct (make (nodes p) (mkn Heading top (S n) 0 45 false false [] [c :: t])) as [i ns] eqn:M. exists (mkp ns (blockNodes p) None (numBlank p) false). split; [reflexivity|]. cbn [nodes blockNodes leafNode numBlank checkCont]. rewrite (rows_make _ _ _ _ M). auto 6.
Qed.
Definition codeRow (par : nat) (ls : list (list Z)) : node := mkn CodeBlock par 0 0 45 false false [] ls.
Lemma extract_pre d l : forall o, l <> [] -> extractFrom (pre d ++ [32; 32; 32; 32] ++ l) o (o + 2 * d + 4) = Some l.
Proof.
  induction d as [|d IH]; intros o N.
  - destruct l as [|x l]; [contradiction|]. cbn [pre repeat concat app]. cbn [extractFrom Z.leb Z.ltb Z.compare Pos.compare Pos.compare_cont Z.eqb Pos.eqb andb negb]. replace (o =? o + 2 * 0 + 4)%nat with false by lia. replace (S o =? o + 2 * 0 + 4)%nat with false by lia. replace (S (S o) =? o + 2 * 0 + 4)%nat with false by lia. replace (S (S (S o)) =? o + 2 * 0 + 4)%nat with false by lia. replace (S (S (S (S o))) =? o + 2 * 0 + 4)%nat with true by lia. reflexivity.
  - rewrite pre_S. cbn [app]. cbn [extractFrom Z.leb Z.ltb Z.compare Pos.compare Pos.compare_cont Z.eqb Pos.eqb andb negb]. replace (o =? o + 2 * S d + 4)%nat with false by lia. replace (S o =? o + 2 * S d + 4)%nat with false by lia. replace (o + 2 * S d + 4)%nat with (S (S o) + 2 * d + 4)%nat by lia. apply IH, N.
Qed.
Lemma extract_nl d l : extractFrom (pre d ++ [32; 32; 32; 32] ++ l ++ [10]) 0 (2 * d + 4) = Some (l ++ [10]).
Proof. apply (extract_pre d (l ++ [10]) 0). destruct l; discriminate. Qed.
Lemma skip_four l o n : skipBlanks ([32; 32; 32; 32] ++ l) o n = skipBlanks l o (4 + n).
Proof. reflexivity. Qed.
Lemma skip_outer c : forall o n, outerIndent (skipBlanks c o n) = o /\ (n <= indent (skipBlanks c o n))%nat.
Proof.
  induction c as [|x c IH]; intros o n; cbn [skipBlanks]; [split; [reflexivity|cbn; lia]|]. destruct (x =? 32); [destruct (IH o (S n)); split; [assumption|lia]|]. destruct (x =? 9); [|split; [reflexivity|cbn; lia]]. destruct (IH o (tabStop n)). pose proof (tabStop_le n). split; [assumption|lia].
Qed.
Lemma code_line p d st l : spine (nodes p) d st -> blockNodes p = st -> codeLine l ->
  exists k, (4 <= indent k - outerIndent k)%nat /\ outerIndent k = (2 * d)%nat /\ (outerIndent k <= indent k)%nat /\ solid (rest k) /\ parseLine p (pre d ++ [32; 32; 32; 32] ++ l ++ [10]) = parseParagraphText p (pre d ++ [32; 32; 32; 32] ++ l ++ [10]) k.
Proof.
  intros Sp B (N10 & x & Ix & Wx). assert (Sc : solid ([32; 32; 32; 32] ++ l ++ [10])) by (exists x; split; [rewrite !in_app_iff; auto|exact Wx]).
  rewrite (enter p d st _ Sp B Sc). pose proof (solid_skip _ (2 * d) (2 * d) Sc) as Sk. set (k := skipBlanks ([32; 32; 32; 32] ++ l ++ [10]) (2 * d) (2 * d)) in *. assert (O : outerIndent k = (2 * d)%nat /\ (4 + 2 * d <= indent k)%nat) by (subst k; rewrite skip_four; apply skip_outer). destruct O as (O1 & O2). exists k. split; [lia|]. split; [exact O1|]. split; [lia|]. split; [exact Sk|].
  cbn [parseNewMarkers]. destruct (rest k) as [|y r] eqn:E; [destruct Sk as (? & [] & _)|]. unfold innerIndent. replace (outerIndent k <=? indent k)%nat with true by lia. replace (4 <=? indent k - outerIndent k)%nat with true by lia. reflexivity.
Qed.
Lemma code_new p d st l top : spine (nodes p) d st -> blockNodes p = st -> hd_error (rev st) = Some top -> codeLine l -> leafNode p = None -> numBlank p = 0%nat ->
  exists p', parseLine p (pre d ++ [32; 32; 32; 32] ++ l ++ [10]) = Some p' /\ rows (nodes p') = rows (nodes p) ++ [codeRow top [l ++ [10]]] /\
    blockNodes p' = st /\ leafNode p' = Some (length (nodes p)) /\ numBlank p' = 0%nat /\ checkCont p' = checkCont p.
Proof.
  intros Sp B Tp Hl Lf Nb. destruct (code_line p d st l Sp B Hl) as (k & K1 & K2 & K3 & K4 & ->). unfold parseParagraphText, isLeaf. rewrite Lf, B, Tp. unfold innerIndent. replace (outerIndent k <=? indent k)%nat with true by lia. replace (4 <=? indent k - outerIndent k)%nat with true by lia. cbn [negb andb].
  pose proof (solid_trim _ K4) as T. destruct (trim (rest k)) as [|t0 t]; [contradiction|]. rewrite Nb. cbn [Nat.eqb]. destruct (make (nodes p) (newNode top CodeBlock)) as [i ns] eqn:M. destruct (make_length _ _ _ _ M) as (_ & ->). cbn [leafNode nodes].
  unfold typeOf. rewrite (make_nth _ _ _ _ _ M), Nat.eqb_refl. cbn [option_map type newNode ntype_eqb]. unfold addCode, extractCodeLine. rewrite K2. rewrite (extract_nl d l). cbn [numBlank nodes blockNodes leafNode checkCont repeat app].
  exists (mkp (upd (length (nodes p)) (addRaw [l ++ [10]]) ns) st (Some (length (nodes p))) 0 (checkCont p)). split; [reflexivity|]. cbn [numBlank nodes blockNodes leafNode checkCont]. split; [|auto]. pose proof (rows_make _ _ _ _ M) as Rm. rewrite <- (rows_length (nodes p)). rewrite (rows_raw _ _ _ _ Rm). reflexivity.
Qed.
Lemma code_more p d st l R r : spine (nodes p) d st -> blockNodes p = st -> codeLine l -> rows (nodes p) = R ++ [r] -> type r = CodeBlock -> leafNode p = Some (length R) -> numBlank p = 0%nat ->
  exists p', parseLine p (pre d ++ [32; 32; 32; 32] ++ l ++ [10]) = Some p' /\ rows (nodes p') = R ++ [addRaw [l ++ [10]] r] /\
    blockNodes p' = st /\ leafNode p' = Some (length R) /\ numBlank p' = 0%nat /\ checkCont p' = checkCont p.
Proof.
  intros Sp B Hl Rw Tr Lf Nb. destruct (code_line p d st l Sp B Hl) as (k & K1 & K2 & K3 & K4 & ->). assert (Ty : typeOf (nodes p) (length R) = Some CodeBlock) by (rewrite rows_type, Rw, nth_error_app2, Nat.sub_diag by lia; cbn; rewrite Tr; reflexivity).
  assert (Tp : exists top, hd_error (rev st) = Some top). { destruct Sp as (_ & qs & -> & _). destruct (rev (0%nat :: qs)) as [|x y] eqn:E; [exfalso; apply (f_equal (@rev nat)) in E; rewrite rev_involutive in E; discriminate E|exists x; reflexivity]. } destruct Tp as (top & Tp).
  unfold parseParagraphText, isLeaf. rewrite Lf, B, Tp, Ty. unfold innerIndent. replace (outerIndent k <=? indent k)%nat with true by lia. replace (4 <=? indent k - outerIndent k)%nat with true by lia. cbn [ntype_eqb negb andb].
  pose proof (solid_trim _ K4) as T. destruct (trim (rest k)) as [|t0 t]; [contradiction|]. rewrite Lf, Ty. cbn [ntype_eqb]. unfold addCode, extractCodeLine. rewrite K2. rewrite (extract_nl d l). rewrite Nb. cbn [repeat app].
  exists (mkp (upd (length R) (addRaw [l ++ [10]]) (nodes p)) (blockNodes p) (leafNode p) 0 (checkCont p)). split; [reflexivity|]. cbn [numBlank nodes blockNodes leafNode checkCont]. rewrite (rows_raw _ _ _ _ Rw). auto.
Qed.

(* ---- blocks ---- *)
Fixpoint runs (p : parser) (ls : list (list Z)) : option parser := match ls with [] => Some p | l :: ls => do p <- parseLine p l; runs p ls end.
Lemma runs_app a : forall p b, runs p (a ++ b) = do p <- runs p a; runs p b.
Proof. induction a as [|l a IH]; intros p b; cbn [app runs]; [reflexivity|]. destruct (parseLine p l); [apply IH|reflexivity]. Qed.
Lemma runs_good ls : forall p p', good p -> runs p ls = Some p' -> good p'.
Proof. induction ls as [|l ls IH]; intros p p' G E; cbn [runs] in E; [injection E as <-; exact G|]. destruct (parseLine p l) as [p1|] eqn:P; [|discriminate]. eapply IH; [eapply line_good; eassumption|exact E]. Qed.

Definition quoteRow (par : nat) : node := mkn BlockQuote par 0 0 45 false false [] [].
Fixpoint itemRows (d l o : nat) (items : list (mark * list (list Z))) : list node :=
  match items with
  | [] => []
  | (m, ls) :: r => itemRow l d m :: paraRow o ls :: itemRows d l (S (S o)) r
  end.
Fixpoint rowsOf (d par o : nat) (b : src) : list node :=
  match b with
  | Para ls => [paraRow par ls]
  | Head n t => [headRow par n t]
  | Listing ls => [codeRow par (map (fun l => l ++ [10]) ls)]
  | Quote l => quoteRow par :: (fix seq (o' : nat) (l : list src) : list node :=
      match l with [] => [] | b :: l => rowsOf (S d) o o' b ++ seq (o' + length (rowsOf (S d) o o' b))%nat l end) (S o) l
  | Items l => match l with [] => [] | (m, _) :: _ => listRow par m :: itemRows d o (S o) l end
  end.
Fixpoint rowsSeq (d par o : nat) (l : list src) : list node :=
  match l with [] => [] | b :: l => rowsOf d par o b ++ rowsSeq d par (o + length (rowsOf d par o b)) l end.
Lemma rowsOf_quote d par o l : rowsOf d par o (Quote l) = quoteRow par :: rowsSeq (S d) o (S o) l.
Proof. cbn [rowsOf]. f_equal. generalize (S o) as o'. induction l as [|b l IH]; intros o'; [reflexivity|]. cbn [rowsSeq]. f_equal. apply IH. Qed.
Lemma written_quote d f l : written d f (Quote l) <-> l <> [] /\ writtenAll (S d) f l.
Proof.
  cbn [written]. assert (E : forall l f, (fix all (f : bool) (l : list src) : Prop := match l with [] => True | b :: l => written (S d) f b /\ match l with [] => True | b' :: _ => apart b b' end /\ all (codeAfter f b) l end) f l <-> writtenAll (S d) f l); [|rewrite E; reflexivity].
  clear. induction l as [|b l IH]; intros f; cbn [writtenAll]; [reflexivity|]. rewrite IH. reflexivity.
Qed.

Definition clean (d : nat) (st : list nat) (f : bool) (p : parser) : Prop :=
  good p /\ blockNodes p = st /\ spine (nodes p) d st /\ (f = true -> leafNode p = None /\ numBlank p = 0%nat /\ checkCont p = false) /\
  (leafNode p = None \/ isLeaf p CodeBlock = true /\ checkCont p = false).
Definition ready (d : nat) (st : list nat) (f : bool) (p : parser) : Prop :=
  exists p0, clean d st f p0 /\ rows (nodes p) = rows (nodes p0) /\ (p = p0 \/ f = false /\ forall c, firm c -> parseLine p (pre d ++ c) = parseLine p0 (pre d ++ c)).
Definition done (d : nat) (st : list nat) (f : bool) (p : parser) : Prop :=
  good p /\ spine (nodes p) d st /\ checkCont p = false /\ (isLeaf p Paragraph = true -> numBlank p = 0%nat) /\
  ((blockNodes p = st /\ (leafNode p = None /\ (f = true -> numBlank p = 0%nat) \/ isLeaf p Paragraph = true \/ isLeaf p CodeBlock = true /\ f = false)) \/
   (exists q ext, blockNodes p = st ++ q :: ext /\ typeOf (nodes p) q = Some BlockQuote) \/
   (exists it n l, blockNodes p = st ++ [it] /\ nth_error (nodes p) it = Some n /\ type n = ListItem /\ (0 < indentOrLevel n)%nat /\
      nth_error (nodes p) (parent n) = Some l /\ type l = List_ /\ isLeaf p Paragraph = true /\ f = false)).
Lemma clean_para d st f p : clean d st f p -> isLeaf p Paragraph = false.
Proof. intros (_ & _ & _ & _ & [H|(H & _)]); unfold isLeaf in *; [rewrite H; reflexivity|]. destruct (leafNode p) as [i|]; [|reflexivity]. destruct (typeOf (nodes p) i) as [[]|]; try reflexivity; discriminate H. Qed.
Lemma clean_quiet d st f p : clean d st f p -> quiet p.
Proof. intros (_ & B & Sp & _ & [H|(_ & H)]); [right; split; [exact H|]; exists false; rewrite B; eapply mark_spine; exact Sp|left; exact H]. Qed.
Lemma spine_top ns d st : spine ns d st -> exists top, hd_error (rev st) = Some top.
Proof. intros (_ & qs & -> & _). destruct (rev (0%nat :: qs)) as [|x y] eqn:E; [exfalso; apply (f_equal (@rev nat)) in E; rewrite rev_involutive in E; discriminate E|exists x; reflexivity]. Qed.
Lemma spine_length ns d st : spine ns d st -> length st = S d. Proof. intros (_ & qs & -> & <- & _). reflexivity. Qed.

(** A blank line between blocks. *)
Lemma blank_match p d st ext : spine (nodes p) d st -> blockNodes p = st ++ ext ->
  match ext with [] => True | i :: _ => exists n, nth_error (nodes p) i = Some n /\ (type n = BlockQuote \/ type n = ListItem /\ (0 < indentOrLevel n)%nat) end ->
  matchLoop (nodes p) (skipn 1 (blockNodes p)) 1 (mklc (pre d ++ [10]) 0 0) = Some (S d, mklc [10] (2 * d) (2 * d)).
Proof.
  intros (_ & qs & -> & <- & Q) B H. rewrite B. cbn [app skipn]. rewrite (match_quotes _ _ Q). cbn [Nat.add]. destruct ext as [|i ext]; [reflexivity|]. destruct H as (n & En & Tn). cbn [matchLoop]. unfold consumeAll. cbn [rest skipBlanks Z.eqb Pos.eqb outerIndent indent]. rewrite En. destruct Tn as [-> |(-> & L)]; cbn [rest Z.eqb Pos.eqb]; [reflexivity|].
  unfold innerIndent. cbn [outerIndent indent]. rewrite Nat.leb_refl, Nat.sub_diag. destruct (indentOrLevel n); [lia|]. reflexivity.
Qed.
Lemma cut_all p k : (length (blockNodes p) <= k)%nat -> cutStack p k = p.
Proof. intros L. unfold cutStack. replace (k <? length (blockNodes p))%nat with false by lia. reflexivity. Qed.
Lemma cut_to p st q ext : blockNodes p = st ++ q :: ext -> cutStack p (length st) = mkp (nodes p) st None 0 (checkCont p).
Proof. intros B. unfold cutStack. rewrite B, app_length. cbn [length]. replace (length st <? length st + S (length ext))%nat with true by lia. rewrite firstn_app, Nat.sub_diag, firstn_all. cbn [firstn]. rewrite app_nil_r. reflexivity. Qed.
Lemma blank_ok d st f p : done d st f p -> exists p', parseLine p (pre d ++ [10]) = Some p' /\ rows (nodes p') = rows (nodes p) /\ ready d st f p'.
Proof.
  intros (G & Sp & Cc & Pn & Cs). pose proof (spine_length _ _ _ Sp) as Ls.
  assert (Ex : exists ext, blockNodes p = st ++ ext /\ match ext with [] => True | i :: _ => exists n, nth_error (nodes p) i = Some n /\ (type n = BlockQuote \/ type n = ListItem /\ (0 < indentOrLevel n)%nat) end).
  { destruct Cs as [(B & _)|[(q & ext & B & Tq)|(it & n & l & B & En & Tn & Ln & _)]]; [exists []; rewrite app_nil_r; auto|exists (q :: ext)|exists [it]]; (split; [exact B|]); [|exists n; auto]. unfold typeOf in Tq. destruct (nth_error (nodes p) q) as [n|]; [|discriminate]. injection Tq as Tq. exists n. auto. }
  destruct Ex as (ext & B & Hx). pose proof (blank_match p d st ext Sp B Hx) as M.
  set (p1 := if isLeaf p Paragraph then mkp (nodes p) (blockNodes p) None (numBlank p) (checkCont p) else p).
  assert (P1 : (if isLeaf p Paragraph then if (numBlank p =? 0)%nat then Some (mkp (nodes p) (blockNodes p) None (numBlank p) (checkCont p)) else None else Some p) = Some p1) by (subst p1; destruct (isLeaf p Paragraph); [rewrite (Pn eq_refl)|]; reflexivity).
  assert (N1 : nodes p1 = nodes p /\ blockNodes p1 = blockNodes p /\ numBlank p1 = numBlank p /\ checkCont p1 = checkCont p) by (subst p1; destruct (isLeaf p Paragraph); auto). destruct N1 as (N1 & N2 & N3 & N4).
  assert (PL : parseLine p (pre d ++ [10]) = do keep <- keepItems (nodes p) (skipn (S d) (blockNodes p)) (S d);
    match (let p := cutStack p1 keep in match leafNode p with
      | Some i => if isLeaf p CodeBlock then Some (mkp (nodes p) (blockNodes p) (leafNode p) (S (numBlank p)) (checkCont p), None) else None
      | None => do (ns, any) <- markLists mayBeLoose (nodes p) (blockNodes p); Some (mkp ns (blockNodes p) None (numBlank p) (checkCont p || any), @None lc) end) with Some (p, None) => Some p | _ => None end).
  { unfold parseLine, matchExistingIndentation. rewrite M. cbn [rest]. change (trim [10]) with (@nil Z). cbv iota. rewrite P1, N1, N2. destruct (keepItems (nodes p) (skipn (S d) (blockNodes p)) (S d)) as [keep|]; [|reflexivity]. cbv zeta. unfold innerIndent. cbn [outerIndent indent]. rewrite Nat.leb_refl, Nat.sub_diag. change (4 <? 0)%nat with false. cbv iota. destruct (leafNode (cutStack p1 keep)); [destruct (isLeaf (cutStack p1 keep) CodeBlock); reflexivity|]. destruct (markLists mayBeLoose (nodes (cutStack p1 keep)) (blockNodes (cutStack p1 keep))) as [[? ?]|]; reflexivity. }
  assert (Sk : skipn (S d) (blockNodes p) = ext) by (rewrite B, <- Ls, skipn_app, skipn_all, Nat.sub_diag; reflexivity).
  rewrite Sk in PL. assert (Fin : forall p', parseLine p (pre d ++ [10]) = Some p' -> good p') by (intros p' E; eapply line_good; eassumption).
  destruct Cs as [(B0 & Cl)|[(q & ext2 & B2 & Tq)|(it & n & l & B2 & En & Tn & Ln & El & Tl & Lp & Hf)]].
  - assert (ext = []) as -> by (rewrite B0 in B; rewrite <- (app_nil_r st) in B at 1; apply app_inv_head in B; auto). cbn [keepItems] in PL. rewrite cut_all in PL by (rewrite N2, B0; lia). cbv zeta in PL. destruct Cl as [(Lf & Nb)|[Lp|(Lc & Hf)]].
    + assert (Lp : isLeaf p Paragraph = false) by (unfold isLeaf; rewrite Lf; reflexivity). assert (E1 : p1 = p) by (subst p1; rewrite Lp; reflexivity). rewrite E1, Lf, B0, (mark_spine _ _ _ _ Sp) in PL. exists (mkp (nodes p) st None (numBlank p) (checkCont p || false)). split; [exact PL|]. split; [reflexivity|]. eexists. split; [|split; [reflexivity|left; reflexivity]].
      split; [apply Fin, PL|]. split; [reflexivity|]. split; [exact Sp|]. cbn. rewrite Cc. split; [auto|left; reflexivity].
    + assert (E1 : p1 = mkp (nodes p) (blockNodes p) None (numBlank p) (checkCont p)) by (subst p1; rewrite Lp; reflexivity). rewrite E1 in PL. cbn [leafNode nodes blockNodes numBlank checkCont] in PL. rewrite B0, (mark_spine _ _ _ _ Sp) in PL. exists (mkp (nodes p) st None (numBlank p) (checkCont p || false)). split; [exact PL|]. split; [reflexivity|]. eexists. split; [|split; [reflexivity|left; reflexivity]].
      split; [apply Fin, PL|]. split; [reflexivity|]. split; [exact Sp|]. cbn. rewrite Cc. split; [auto|left; reflexivity].
    + destruct (isLeaf_spec _ _ Lc) as (i & ni & Li & Ei & Ti). assert (Lp : isLeaf p Paragraph = false) by (unfold isLeaf, typeOf; rewrite Li, Ei; cbn; rewrite Ti; reflexivity). assert (E1 : p1 = p) by (subst p1; rewrite Lp; reflexivity). rewrite E1, Li, Lc, B0 in PL. exists (mkp (nodes p) st (Some i) (S (numBlank p)) (checkCont p)). split; [exact PL|]. split; [reflexivity|]. eexists. split; [|split; [reflexivity|left; reflexivity]].
      split; [apply Fin, PL|]. split; [reflexivity|]. split; [exact Sp|]. split; [congruence|]. right. split; [|exact Cc]. unfold isLeaf in *. cbn [leafNode nodes]. rewrite Li in Lc. exact Lc.
  - assert (Ee : ext = q :: ext2) by (rewrite B2 in B; apply app_inv_head in B; auto). rewrite Ee in PL. cbn [keepItems] in PL. rewrite Tq in PL. assert (Cu : cutStack p1 (S d) = mkp (nodes p1) st None 0 (checkCont p1)) by (rewrite <- Ls; apply (cut_to p1 st q ext2); rewrite N2; exact B2). rewrite Cu in PL. cbn [leafNode nodes blockNodes numBlank checkCont] in PL. rewrite N1, (mark_spine _ _ _ _ Sp), N4 in PL. exists (mkp (nodes p) st None 0 (checkCont p || false)). split; [exact PL|]. split; [reflexivity|]. eexists. split; [|split; [reflexivity|left; reflexivity]].
    split; [apply Fin, PL|]. split; [reflexivity|]. split; [exact Sp|]. cbn. rewrite Cc. split; [auto|left; reflexivity].
  - assert (Ee : ext = [it]) by (rewrite B2 in B; apply app_inv_head in B; auto). rewrite Ee in PL. cbn [keepItems] in PL. unfold typeOf in PL. rewrite En in PL. cbn [option_map] in PL. rewrite Tn in PL. rewrite cut_all in PL by (rewrite N2, B2, app_length; cbn; lia). assert (E1 : p1 = mkp (nodes p) (blockNodes p) None (numBlank p) (checkCont p)) by (subst p1; rewrite Lp; reflexivity). rewrite E1 in PL. cbn [leafNode nodes blockNodes numBlank checkCont] in PL.
    rewrite B2, (mark_item _ _ _ _ _ _ _ Sp En Tn El Tl) in PL.
    assert (X : exists ns any, match mayBeLoose l with Some l' => Some (upd (parent n) (fun _ => l') (nodes p), true) | None => Some (nodes p, false) end = Some (ns, any) /\ rows ns = rows (nodes p) /\ nth_error ns it = Some n).
    { unfold mayBeLoose. destruct (isLoose l) eqn:Il; [exists (nodes p), false; auto|]. eexists _, _. split; [reflexivity|]. split; [apply (rows_upd1 _ _ _ _ El); unfold norm, setLoose; cbn; rewrite Il; reflexivity|]. rewrite nth_upd. destruct (Nat.eqb_spec (parent n) it) as [Ep|]; [rewrite Ep in El; congruence|exact En]. }
    destruct X as (ns & any & X1 & X2 & X3). rewrite X1 in PL. set (p' := mkp ns (st ++ [it]) None (numBlank p) (checkCont p || any)) in *. exists p'. split; [exact PL|]. split; [exact X2|]. pose proof (Fin p' PL) as G'.
    assert (Sp' : spine ns d st) by (apply (rows_spine (nodes p) ns d st []); [rewrite app_nil_r; exact X2|exact Sp]). assert (Cp : cutStack p' (S d) = mkp ns st None 0 (checkCont p || any)) by (rewrite <- Ls; apply (cut_to p' st it []); reflexivity).
    exists (cutStack p' (S d)). split; [|split; [rewrite Cp; reflexivity|right; split; [exact Hf|]; intros c Fc; eapply enter_item; [exact Sp'|reflexivity|exact X3|exact Tn|exact Ln|exact Fc]]].
    split; [apply good_cut, G'|]. rewrite Cp. split; [reflexivity|]. split; [exact Sp'|]. split; [congruence|left; reflexivity].
Qed.

(* ---- one block ---- *)
Definition nl (l : list Z) : list Z := l ++ [10].
Lemma ready_step d st f p c : ready d st f p -> firm c -> exists p0, clean d st f p0 /\ rows (nodes p) = rows (nodes p0) /\ parseLine p (pre d ++ c) = parseLine p0 (pre d ++ c).
Proof. intros (p0 & C & R & [-> |(_ & H)]) F; exists p0; auto. Qed.
Lemma text_ne t : textLine t -> t ++ [10] <> []. Proof. intros _ E. destruct t; discriminate E. Qed.
Lemma text_step p d st t : spine (nodes p) d st -> blockNodes p = st -> textLine t -> parseLine p (pre d ++ t ++ [10]) = parseParagraphText p (pre d ++ t ++ [10]) (mklc (t ++ [10]) (2 * d) (2 * d)).
Proof.
  intros Sp B T. pose proof (text_firm t T) as F. rewrite (enter p d st _ Sp B (firm_solid _ F)), (firm_skip _ _ _ F). rewrite (markers_stop _ _ _ _ (text_ne t T) (no_marker p t _ T)). reflexivity.
Qed.
Lemma paras (step : list Z -> list Z) bn R top : bn <> [] -> (forall p r t, rows (nodes p) = R ++ [r] -> blockNodes p = bn -> textLine t -> exists line o, parseLine p (step t) = parseParagraphText p line (mklc (t ++ [10]) o o)) ->
  forall ls p ls0, rows (nodes p) = R ++ [paraRow top ls0] -> blockNodes p = bn -> leafNode p = Some (length R) -> numBlank p = 0%nat -> checkCont p = false -> Forall textLine ls ->
  exists p', runs p (map step ls) = Some p' /\ rows (nodes p') = R ++ [paraRow top (ls0 ++ ls)] /\ blockNodes p' = bn /\ leafNode p' = Some (length R) /\ numBlank p' = 0%nat /\ checkCont p' = false.
Proof.
  intros Nb H. induction ls as [|t ls IH]; intros p ls0 Rw B L Z C F; [exists p; rewrite app_nil_r; cbn; auto 7|]. inversion F as [|? ? Ft Fl]; subst.
  destruct (H p _ t Rw eq_refl Ft) as (line & o & E). destruct (para_more p line t o R _ Ft Nb Rw eq_refl L C) as (p1 & P1 & P2 & P3 & P4 & P5 & P6).
  change (addRaw [t] (paraRow top ls0)) with (paraRow top (ls0 ++ [t])) in P2. destruct (IH p1 _ P2 P3 (eq_trans P4 L) (eq_trans P5 Z) P6 Fl) as (p' & Q1 & Q2 & Q3). exists p'. cbn [map runs]. rewrite E, P1. split; [exact Q1|]. split; [rewrite Q2, <- app_assoc; reflexivity|exact Q3].
Qed.
Lemma leaf_last p R r t : rows (nodes p) = R ++ [r] -> leafNode p = Some (length R) -> type r = t -> isLeaf p t = true.
Proof. intros Rw L T. unfold isLeaf. rewrite L, rows_type, Rw, nth_error_app2, Nat.sub_diag by lia. cbn. rewrite T. destruct t; reflexivity. Qed.
Lemma para_ok d st f p ls top : ready d st f p -> hd_error (rev st) = Some top -> ls <> [] -> Forall textLine ls ->
  exists p', runs p (map nl (linesAt d (Para ls))) = Some p' /\ rows (nodes p') = rows (nodes p) ++ [paraRow top ls] /\ done d st true p'.
Proof.
  intros Rd Tp Ne F. destruct ls as [|t ls]; [contradiction|]. inversion F as [|? ? Ft Fl]; subst. destruct (ready_step _ _ _ _ _ Rd (text_firm t Ft)) as (p0 & C & Rw & St). pose proof C as (G & B & Sp & _).
  destruct (para_new p0 (pre d ++ t ++ [10]) t (2 * d) top Ft ltac:(rewrite B; exact Tp) (clean_para _ _ _ _ C) (clean_quiet _ _ _ _ C)) as (p1 & P1 & P2 & P3 & P4 & P5 & P6).
  rewrite <- (text_step _ _ _ _ Sp B Ft) in P1. assert (Ns : st <> []) by (intros ->; discriminate Tp).
  destruct (paras (fun t => pre d ++ t ++ [10]) st (rows (nodes p0)) top Ns) with (ls := ls) (p := p1) (ls0 := [t]) as (p' & Q1 & Q2 & Q3 & Q4 & Q5 & Q6); [|exact P2|congruence|rewrite rows_length; exact P4|exact P5|exact P6|exact Fl|].
  { intros q r u Rq Bq Fu. exists (pre d ++ u ++ [10]), (2 * d)%nat. eapply text_step; [eapply rows_spine; [exact Rq|exact Sp]|exact Bq|exact Fu]. }
  exists p'. assert (Run : runs p (map nl (linesAt d (Para (t :: ls)))) = Some p').
  { cbn [linesAt map runs]. unfold nl at 1. rewrite <- app_assoc, St, P1. rewrite map_map. erewrite map_ext; [exact Q1|]. intros u. unfold nl. apply eq_sym, app_assoc. }
  split; [exact Run|]. split; [rewrite Rw; exact Q2|].
  assert (G' : good p') by (apply (runs_good (map (fun t => pre d ++ t ++ [10]) ls) p1 p'); [apply (line_good p0 (pre d ++ t ++ [10]) p1 G P1)|exact Q1]).
  split; [exact G'|]. split; [eapply rows_spine; [exact Q2|exact Sp]|]. split; [exact Q6|]. split; [auto|]. left. split; [exact Q3|]. right. left. eapply leaf_last; [exact Q2|exact Q4|reflexivity].
Qed.
Lemma hash_firm n t : (1 <= n)%nat -> firm (repeat 35 n ++ [32] ++ t).
Proof. intros L. destruct n; [lia|]. exists 35, (repeat 35 n ++ [32] ++ t). split; [reflexivity|]. unfold white. lia. Qed.
Lemma head_ok d st f p n t top : ready d st f p -> hd_error (rev st) = Some top -> (1 <= n <= 6)%nat -> hugs t ->
  exists p', runs p (map nl (linesAt d (Head n t))) = Some p' /\ rows (nodes p') = rows (nodes p) ++ [headRow top n t] /\ done d st f p'.
Proof.
  intros Rd Tp N H. pose proof (hash_firm n (t ++ [10]) ltac:(lia)) as F. destruct (ready_step _ _ _ _ _ Rd F) as (p0 & C & Rw & St). pose proof C as (G & B & Sp & Fr & _).
  destruct (head_new p0 (pre d ++ repeat 35 n ++ [32] ++ t ++ [10]) n t (2 * d) top N H ltac:(rewrite B; exact Tp) (clean_para _ _ _ _ C) (clean_quiet _ _ _ _ C)) as (p1 & P1 & P2 & P3 & P4 & P5 & P6).
  assert (Hn : repeat 35 n ++ [32] ++ t ++ [10] <> []) by (destruct n; discriminate).
  assert (O : oneMarker p0 (mklc (repeat 35 n ++ [32] ++ t ++ [10]) (2 * d) (2 * d)) = Some None) by (destruct n; [lia|reflexivity]).
  assert (Pl : parseLine p0 (pre d ++ repeat 35 n ++ [32] ++ t ++ [10]) = Some p1). { rewrite (enter p0 d st _ Sp B (firm_solid _ F)), (firm_skip _ _ _ F), (markers_stop _ _ _ _ Hn O). exact P1. }
  exists p1. split; [cbn [linesAt map runs]; unfold nl; rewrite <- !app_assoc; rewrite St, Pl; reflexivity|]. split; [rewrite Rw; exact P2|].
  split; [eapply line_good; [exact G|exact Pl]|]. split; [eapply rows_spine; [exact P2|exact Sp]|]. split; [exact P6|]. split; [unfold isLeaf; rewrite P4; discriminate|]. left. split; [congruence|]. left. split; [exact P4|]. intros Hf. destruct (Fr Hf) as (_ & Z & _). congruence.
Qed.
Lemma codes d st p0 top : spine (nodes p0) d st -> forall ls p ls0, rows (nodes p) = rows (nodes p0) ++ [codeRow top ls0] -> blockNodes p = st -> leafNode p = Some (length (nodes p0)) -> numBlank p = 0%nat -> checkCont p = false -> Forall codeLine ls ->
  exists p', runs p (map (fun l => pre d ++ [32; 32; 32; 32] ++ l ++ [10]) ls) = Some p' /\ rows (nodes p') = rows (nodes p0) ++ [codeRow top (ls0 ++ map nl ls)] /\ blockNodes p' = st /\ leafNode p' = Some (length (nodes p0)) /\ checkCont p' = false.
Proof.
  intros Sp. induction ls as [|t ls IH]; intros p ls0 Rw B L Z C F; [exists p; rewrite app_nil_r; cbn; auto 7|]. inversion F as [|? ? Ft Fl]; subst. rewrite <- (rows_length (nodes p0)) in L.
  destruct (code_more p d (blockNodes p) t (rows (nodes p0)) _ (rows_spine _ _ _ _ _ Rw Sp) eq_refl Ft Rw eq_refl L Z) as (p1 & P1 & P2 & P3 & P4 & P5 & P6).
  change (addRaw [t ++ [10]] (codeRow top ls0)) with (codeRow top (ls0 ++ [t ++ [10]])) in P2. rewrite rows_length in P4. destruct (IH p1 _ P2 P3 P4 P5 (eq_trans P6 C) Fl) as (p' & Q1 & Q2 & Q3). exists p'. cbn [map runs]. rewrite P1. split; [exact Q1|]. split; [rewrite Q2, <- app_assoc; reflexivity|exact Q3].
Qed.
Lemma code_ok d st p ls top : ready d st true p -> hd_error (rev st) = Some top -> ls <> [] -> Forall codeLine ls ->
  exists p', runs p (map nl (linesAt d (Listing ls))) = Some p' /\ rows (nodes p') = rows (nodes p) ++ [codeRow top (map nl ls)] /\ done d st false p'.
Proof.
  intros (p0 & C & _ & [<- |(E & _)]) Tp Ne F; [|discriminate E]. destruct ls as [|t ls]; [contradiction|]. inversion F as [|? ? Ft Fl]; subst. pose proof C as (G & B & Sp & Fr & _). destruct (Fr eq_refl) as (Lf & Nb & Cc).
  destruct (code_new p d st t top Sp B Tp Ft Lf Nb) as (p1 & P1 & P2 & P3 & P4 & P5 & P6).
  destruct (codes d st p top Sp ls p1 [t ++ [10]] P2 P3 P4 P5 (eq_trans P6 Cc) Fl) as (p' & Q1 & Q2 & Q3 & Q4 & Q5).
  exists p'. split; [cbn [linesAt map runs]; unfold nl at 1; rewrite <- !app_assoc, P1, map_map; erewrite map_ext; [exact Q1|]; intros u; unfold nl; rewrite <- !app_assoc; reflexivity|]. split; [exact Q2|].
  assert (G' : good p') by (eapply runs_good; [|exact Q1]; eapply line_good; [exact G|exact P1]).
  assert (Lc : isLeaf p' CodeBlock = true) by (eapply leaf_last; [exact Q2|rewrite rows_length; exact Q4|reflexivity]).
  split; [exact G'|]. split; [eapply rows_spine; [exact Q2|exact Sp]|]. split; [exact Q5|]. split; [|left; split; [exact Q3|]; auto]. intros Lp. destruct (isLeaf_spec _ _ Lc) as (i & n & Li & Ei & Ti). unfold isLeaf, typeOf in Lp. rewrite Li, Ei in Lp. cbn in Lp. rewrite Ti in Lp. discriminate Lp.
Qed.

(* ---- items ---- *)
Lemma skip_many n : forall c o k, skipBlanks (repeat 32 n ++ c) o k = skipBlanks c o (k + n).
Proof. induction n as [|n IH]; intros c o k; cbn [repeat app skipBlanks Z.eqb Pos.eqb]; [rewrite Nat.add_0_r; reflexivity|]. rewrite IH. f_equal. lia. Qed.
Lemma enter_in p it n c : typeOf (nodes p) 0 = Some Document -> blockNodes p = [0%nat; it] -> nth_error (nodes p) it = Some n -> type n = ListItem -> firm c ->
  parseLine p (repeat 32 (indentOrLevel n) ++ c) = do (p, k) <- parseNewMarkers (S (length c)) p (mklc c (indentOrLevel n) (indentOrLevel n)); parseParagraphText p (repeat 32 (indentOrLevel n) ++ c) k.
Proof.
  intros D B En Tn F. unfold parseLine, matchExistingIndentation. rewrite B. cbn [skipn matchLoop]. unfold consumeAll. cbn [rest outerIndent indent]. rewrite En, Tn, skip_many, (firm_skip _ _ _ F). cbn [Nat.add]. unfold innerIndent, setOuter. cbn [rest outerIndent indent Nat.leb Nat.add]. rewrite Nat.sub_0_r, Nat.leb_refl. rewrite (firm_skip _ _ _ F). cbn [rest].
  pose proof (solid_trim _ (firm_solid _ F)) as T. destruct (trim c) as [|t0 t]; [contradiction|]. rewrite cut_all by (rewrite B; cbn; lia). reflexivity.
Qed.
Lemma mark_firm m t : markOk m -> firm (markText m ++ t).
Proof.
  destruct m as [c|ds q]; cbn [markOk markText]; intros H.
  - exists c, t. split; [reflexivity|]. unfold white. cbn [In] in H. lia.
  - destruct H as (D & L & _). destruct ds as [|c ds]; [cbn in L; lia|]. inversion D as [|? ? Hc _]; subst. exists c, ((ds ++ [q]) ++ t). split; [reflexivity|]. unfold white, digit in *. lia.
Qed.
Lemma row_at ns R r X i : rows ns = R ++ r :: X -> i = length R -> exists n, nth_error ns i = Some n /\ norm n = r.
Proof. intros Rw ->. pose proof (rows_nth ns (length R)) as E. rewrite Rw, nth_error_app2, Nat.sub_diag in E by lia. cbn [nth_error] in E. destruct (nth_error ns (length R)) as [n|]; [|discriminate E]. exists n. split; [reflexivity|]. cbn [option_map] in E. congruence. Qed.
Lemma item_step p d st m t p1 : spine (nodes p) d st -> blockNodes p = st -> markOk m -> textLine t -> leafNode p = None \/ startOf m = -1 \/ startOf m = 1 ->
  gotListMarker p (width d m) (startOf m) (snd (kindOf m)) = Some p1 ->
  parseLine p (pre d ++ markText m ++ 32 :: t ++ [10]) = parseParagraphText p1 (pre d ++ markText m ++ 32 :: t ++ [10]) (mklc (t ++ [10]) (width d m) (width d m)).
Proof.
  intros Sp B M T L Gm. pose proof (mark_firm m (32 :: t ++ [10]) M) as F. pose proof (text_firm t T) as Ft. rewrite (enter p d st _ Sp B (firm_solid _ F)), (firm_skip _ _ _ F). cbn [rest].
  assert (O := a_marker p m t (2 * d) M T L). fold (width d m) in O. rewrite Gm in O. assert (N : markText m ++ 32 :: t ++ [10] <> []) by (destruct (markText m); discriminate).
  rewrite (markers_step _ _ _ _ _ _ N O). unfold consumeAll. cbn [rest outerIndent indent]. rewrite (firm_skip _ _ _ Ft). assert (Ln : exists k, length (markText m ++ 32 :: t ++ [10]) = S k) by (destruct (markText m ++ 32 :: t ++ [10]) as [|x y]; [contradiction|exists (length y); reflexivity]). destruct Ln as (k & ->).
  rewrite (markers_stop _ _ _ _ (text_ne t T) (no_marker p1 t _ T)). reflexivity.
Qed.
Definition inItem (d : nat) (st : list nat) (top l : nat) (m0 : mark) (p : parser) : Prop :=
  exists R m ls, rows (nodes p) = R ++ [itemRow l d m; paraRow (length R) ls] /\ good p /\ spine (nodes p) d st /\ blockNodes p = st ++ [length R] /\ leafNode p = Some (S (length R)) /\
    numBlank p = 0%nat /\ checkCont p = false /\ (top < l < length R)%nat /\ nth_error R l = Some (listRow top m0) /\ lastKid (rows (nodes p)) top = Some l.
(** The first line of an item is read; then the others. *)
Lemma item_tail d st top l m0 p R m t more : rows (nodes p) = R ++ [itemRow l d m; paraRow (length R) [t]] -> good p -> spine (nodes p) d st -> blockNodes p = st ++ [length R] -> leafNode p = Some (S (length R)) ->
  numBlank p = 0%nat -> checkCont p = false -> (top < l < length R)%nat -> nth_error R l = Some (listRow top m0) -> lastKid R top = Some l -> R <> [] -> Forall textLine more -> d = 0%nat \/ more = [] ->
  exists p', runs p (map nl (map (fun l => pre d ++ repeat 32 (S (length (markText m))) ++ l) more)) = Some p' /\ rows (nodes p') = R ++ [itemRow l d m; paraRow (length R) (t :: more)] /\ inItem d st top l m0 p'.
Proof.
  intros Rw G Sp B L Z C Tl El Lk Rn F Hd.
  assert (K : forall ls, lastKid (R ++ [itemRow l d m; paraRow (length R) ls]) top = Some l) by (intros ls; rewrite lastKid_skip; [exact Lk|exact Rn|]; constructor; [cbn; lia|constructor; [cbn; lia|constructor]]).
  assert (X : exists p', runs p (map nl (map (fun l => pre d ++ repeat 32 (S (length (markText m))) ++ l) more)) = Some p' /\ rows (nodes p') = R ++ [itemRow l d m; paraRow (length R) (t :: more)] /\ blockNodes p' = st ++ [length R] /\ leafNode p' = Some (S (length R)) /\ numBlank p' = 0%nat /\ checkCont p' = false).
  { destruct Hd as [->| ->]; [|exists p; cbn [map runs]; auto 7]. pose proof Sp as (D & qs & Es & Lq & _). destruct qs; [|discriminate Lq]. subst st.
    destruct (paras (fun u => repeat 32 (width 0 m) ++ u ++ [10]) [0%nat; length R] (R ++ [itemRow l 0 m]) (length R)) with (ls := more) (p := p) (ls0 := [t]) as (p' & Q1 & Q2 & Q3 & Q4 & Q5 & Q6);
      [discriminate| |rewrite Rw, <- app_assoc; reflexivity|exact B|rewrite L, app_length; cbn; f_equal; lia|exact Z|exact C|exact F|].
    - intros q r u Rq Bq Fu. exists (repeat 32 (width 0 m) ++ u ++ [10]), (width 0 m).
      assert (Rt : exists n, nth_error (nodes q) (length R) = Some n /\ norm n = itemRow l 0 m).
      { pose proof (rows_nth (nodes q) (length R)) as Eq. rewrite Rq, <- app_assoc, nth_error_app2, Nat.sub_diag in Eq by lia. cbn [app nth_error] in Eq. destruct (nth_error (nodes q) (length R)) as [n|]; [|discriminate]. exists n. split; [reflexivity|]. cbn [option_map] in Eq. congruence. }
      destruct Rt as (n & En & Nn). assert (Tn : type n = ListItem) by (change (type (norm n) = ListItem); rewrite Nn; reflexivity). assert (In_ : indentOrLevel n = width 0 m) by (change (indentOrLevel (norm n) = width 0 m); rewrite Nn; reflexivity).
      assert (Dq : typeOf (nodes q) 0 = Some Document). { rewrite rows_type in D |- *. rewrite Rw in D. rewrite Rq, <- app_assoc. destruct R as [|r0 R0]; [contradiction|]. exact D. }
      rewrite <- In_. rewrite (enter_in q (length R) n _ Dq Bq En Tn (text_firm u Fu)). rewrite (markers_stop _ _ _ _ (text_ne u Fu) (no_marker q u _ Fu)). reflexivity.
    - exists p'. split; [rewrite map_map; erewrite map_ext; [exact Q1|]; intros u; unfold nl; rewrite <- !app_assoc; reflexivity|]. split; [rewrite Q2, <- app_assoc; reflexivity|]. split; [exact Q3|]. split; [rewrite Q4, app_length; cbn; f_equal; lia|auto]. }
  destruct X as (p' & X1 & X2 & X3 & X4 & X5 & X6). exists p'. split; [exact X1|]. split; [exact X2|]. exists R, m, (t :: more). split; [exact X2|]. split; [eapply runs_good; [exact G|exact X1]|]. split.
  - assert (Ty : forall i, typeOf (nodes p') i = typeOf (nodes p) i). { intros i. rewrite !rows_type, X2, Rw. destruct (Nat.lt_ge_cases i (length R)) as [Hi|Hi]; [rewrite !nth_error_app1 by lia; reflexivity|]. rewrite !nth_error_app2 by lia. destruct (i - length R)%nat as [|[|x]]; [reflexivity..|]. cbn. destruct x; reflexivity. }
    destruct Sp as (D & qs & A1 & A2 & A3). split; [rewrite Ty; exact D|]. exists qs. split; [exact A1|]. split; [exact A2|]. revert A3. apply Forall_impl. intros q. rewrite Ty. auto.
  - rewrite X2. auto 10.
Qed.
Lemma item_next d st top l m0 p m t more : inItem d st top l m0 p -> hd_error (rev st) = Some top -> markOk m -> markOk m0 -> sameKind m0 m -> Forall textLine (t :: more) -> d = 0%nat \/ more = [] ->
  exists p', runs p (map nl (itemLines d (m, t :: more))) = Some p' /\ rows (nodes p') = rows (nodes p) ++ [itemRow l d m; paraRow (length (rows (nodes p))) (t :: more)] /\ inItem d st top l m0 p'.
Proof.
  intros (R & m1 & ls & Rw & G & Sp & B & L & Z & C & Tl & El & Lk) Tp Mk Mk0 Sk F Hd. inversion F as [|? ? Ft Fm]; subst.
  assert (It : exists n, nth_error (nodes p) (length R) = Some n /\ norm n = itemRow l d m1).
  { pose proof (rows_nth (nodes p) (length R)) as Eq. rewrite Rw, nth_error_app2, Nat.sub_diag in Eq by lia. cbn [app nth_error] in Eq. destruct (nth_error (nodes p) (length R)) as [n|]; [|discriminate]. exists n. split; [reflexivity|]. cbn [option_map] in Eq. congruence. }
  destruct It as (n & En & Nn). assert (Tn : type n = ListItem) by (change (type (norm n) = ListItem); rewrite Nn; reflexivity). assert (In_ : indentOrLevel n = width d m1) by (change (indentOrLevel (norm n) = width d m1); rewrite Nn; reflexivity).
  pose proof (mark_firm m (32 :: t ++ [10]) Mk) as Fi. pose proof (enter_item p d st _ _ _ Sp B En Tn ltac:(rewrite In_; unfold width; lia) Fi) as E0. rewrite <- (spine_length _ _ _ Sp), (cut_to p st (length R) [] B) in E0. set (p0 := mkp (nodes p) st None 0 (checkCont p)) in *.
  assert (G0 : good p0). { pose proof (good_cut p (length st) G) as X. rewrite (cut_to p st (length R) [] B) in X. exact X. }
  assert (Ek : lastKind (rows (nodes p0)) top = Some (kindOf m)). { unfold lastKind. change (nodes p0) with (nodes p). rewrite Lk, Rw, nth_error_app1, El by lia. unfold kindN, listRow. cbn [type listStartNumber listPunc]. rewrite (start_kind m0 Mk0). apply same_kind in Sk. rewrite Sk. destruct (kindOf m); reflexivity. }
  destruct (got_next p0 d st top G0 eq_refl Sp Tp (width d m) m l Mk Lk Ek) as (p1 & P1 & P2 & P3 & P4 & P5 & P6). fold (itemRow l d m) in P2.
  pose proof (item_step p0 d st m t p1 Sp eq_refl Mk Ft (or_introl eq_refl) P1) as E1.
  assert (Tp1 : hd_error (rev (blockNodes p1)) = Some (length (nodes p))) by (rewrite P3, rev_app_distr; reflexivity).
  destruct (para_new p1 (pre d ++ markText m ++ 32 :: t ++ [10]) t (width d m) _ Ft Tp1) as (p2 & Q1 & Q2 & Q3 & Q4 & Q5 & Q6); [unfold isLeaf; rewrite P4; reflexivity|left; rewrite P6; exact C|].
  rewrite <- E1, <- E0 in Q1. change (nodes p0) with (nodes p) in P2, P3. rewrite P2, <- app_assoc in Q2. cbn [app] in Q2. assert (Len : length (nodes p1) = S (length (nodes p))) by (rewrite <- rows_length, P2, app_length, rows_length; cbn; lia). assert (Lp : length (rows (nodes p)) = S (S (length R))) by (rewrite Rw, app_length; cbn; lia).
  destruct (item_tail d st top l m0 p2 (rows (nodes p)) m t more) as (p' & X1 & X2 & X3); try assumption.
  - rewrite Q2, rows_length. reflexivity.
  - apply (line_good p (pre d ++ markText m ++ 32 :: t ++ [10]) p2 G Q1).
  - eapply rows_spine; [exact Q2|exact Sp].
  - rewrite Q3, P3, rows_length. reflexivity.
  - rewrite Q4, Len, rows_length. reflexivity.
  - lia.
  - rewrite Rw, nth_error_app1 by lia. exact El.
  - intros E. rewrite E in Lp. discriminate Lp.
  - exists p'. split; [|split; assumption]. cbn [itemLines map runs]. unfold nl at 1. rewrite <- !app_assoc. cbn [app]. rewrite Q1. exact X1.
Qed.
Lemma items_more d st top l m0 : hd_error (rev st) = Some top -> markOk m0 -> forall items p, inItem d st top l m0 p -> Forall (itemOk' d) items -> Forall (fun it => sameKind m0 (fst it)) items ->
  exists p', runs p (map nl (flat_map (itemLines d) items)) = Some p' /\ rows (nodes p') = rows (nodes p) ++ itemRows d l (length (rows (nodes p))) items /\ inItem d st top l m0 p'.
Proof.
  intros Tp Mk0. induction items as [|[m ls] items IH]; intros p I Fo Fs; [exists p; rewrite app_nil_r; cbn; auto|]. inversion Fo as [|? ? (Mk & Ne & Ft & Hd) Fo']; subst. inversion Fs as [|? ? Sk Fs']; subst. cbn [fst snd] in *. destruct ls as [|t more]; [contradiction|].
  assert (Hd' : d = 0%nat \/ more = []) by (destruct Hd as [Hd|Hd]; [auto|right; destruct more; [reflexivity|discriminate Hd]]).
  destruct (item_next d st top l m0 p m t more I Tp Mk Mk0 Sk Ft Hd') as (p1 & P1 & P2 & P3). destruct (IH p1 P3 Fo' Fs') as (p' & Q1 & Q2 & Q3). exists p'. split; [cbn [flat_map]; rewrite map_app, runs_app, P1; exact Q1|]. split; [|exact Q3].
  rewrite Q2, P2, <- app_assoc. cbn [app itemRows]. repeat f_equal. rewrite app_length. cbn. lia.
Qed.
Lemma top_bound p d st top : spine (nodes p) d st -> hd_error (rev st) = Some top -> (top < length (nodes p))%nat.
Proof. intros Sp Tp. destruct (top_type p d st top Sp Tp) as (n & En & _). apply nth_error_Some. congruence. Qed.
Lemma items_ok d st f p m ls items top : ready d st f p -> hd_error (rev st) = Some top -> written d f (Items ((m, ls) :: items)) -> lastKind (rows (nodes p)) top <> Some (kindOf m) ->
  exists p', runs p (map nl (linesAt d (Items ((m, ls) :: items)))) = Some p' /\ rows (nodes p') = rows (nodes p) ++ rowsOf d top (length (rows (nodes p))) (Items ((m, ls) :: items)) /\ done d st false p'.
Proof.
  intros Rd Tp (Fo & Fs & Hs) Nk. inversion Fo as [|? ? (Mk & Ne & Ft & Hd) Fo']; subst. inversion Fs as [|? ? _ Fs']; subst. cbn [fst snd] in *. destruct ls as [|t more]; [contradiction|]. inversion Ft as [|? ? Ft1 Fm]; subst.
  assert (Hd' : d = 0%nat \/ more = []) by (destruct Hd as [Hd|Hd]; [auto|right; destruct more; [reflexivity|discriminate Hd]]).
  destruct (ready_step _ _ _ _ _ Rd (mark_firm m (32 :: t ++ [10]) Mk)) as (p0 & Cl & Rw & St). pose proof Cl as (G & B & Sp & Fr & Lf). rewrite Rw in Nk |- *.
  destruct (got_new p0 d st top G B Sp Tp (width d m) m Mk Nk) as (p1 & l & P1 & P2 & P3 & P4 & P5 & P6 & P7 & P8 & P9). fold (itemRow (length (nodes p0)) d m) in P2.
  assert (Hs' : leafNode p0 = None \/ startOf m = -1 \/ startOf m = 1) by (destruct Hs as [->|Hs]; [left; apply Fr; reflexivity|auto]).
  pose proof (item_step p0 d st m t p1 Sp B Mk Ft1 Hs' P1) as E1.
  assert (Sp1 : spine (nodes p1) d st) by (eapply rows_spine; [exact P2|exact Sp]).
  assert (Tp1 : hd_error (rev (blockNodes p1)) = Some (S (length (nodes p0)))) by (rewrite P3, rev_app_distr; reflexivity).
  assert (It : exists n, nth_error (nodes p1) (S (length (nodes p0))) = Some n /\ norm n = itemRow (length (nodes p0)) d m).
  { apply (row_at _ (rows (nodes p0) ++ [listRow top m]) _ []); [rewrite P2, <- app_assoc; reflexivity|]. rewrite app_length, rows_length. cbn. lia. }
  destruct It as (n & En & Nn). assert (Tn : type n = ListItem) by (change (type (norm n) = ListItem); rewrite Nn; reflexivity). assert (Pn : parent n = length (nodes p0)) by (change (parent (norm n) = length (nodes p0)); rewrite Nn; reflexivity).
  assert (Qt : quiet p1). { right. split; [exact P4|]. exists false. rewrite P3. rewrite (mark_item nowLoose _ _ _ _ _ l Sp1 En Tn); [|rewrite Pn; exact P7|exact P8]. unfold nowLoose. rewrite P9. reflexivity. }
  destruct (para_new p1 (pre d ++ markText m ++ 32 :: t ++ [10]) t (width d m) _ Ft1 Tp1) as (p2 & Q1 & Q2 & Q3 & Q4 & Q5 & Q6); [unfold isLeaf; rewrite P4; reflexivity|exact Qt|].
  rewrite <- E1, <- St in Q1. rewrite P2 in Q2. pose proof (top_bound _ _ _ _ Sp Tp) as Tb. assert (Len : length (nodes p1) = S (S (length (nodes p0)))) by (rewrite <- rows_length, P2, app_length, rows_length; cbn; lia).
  assert (Rn : rows (nodes p0) <> []) by (intros E; apply (f_equal (@length _)) in E; rewrite rows_length in E; cbn in E; lia).
  destruct (item_tail d st top (length (nodes p0)) m p2 (rows (nodes p0) ++ [listRow top m]) m t more) as (p3 & X1 & X2 & X3).
  - rewrite Q2, app_length, rows_length, <- !app_assoc. cbn [app length]. repeat f_equal. lia.
  - destruct Rd as (q0 & (Gq & _) & _ & [->|(_ & Hq)]); [eapply line_good; [exact Gq|exact Q1]|]. eapply line_good; [exact Gq|]. rewrite <- Hq; [exact Q1|apply mark_firm, Mk].
  - eapply rows_spine; [|exact Sp]. rewrite Q2, <- app_assoc. reflexivity.
  - rewrite Q3, P3, app_length, rows_length. cbn. do 2 f_equal. lia.
  - rewrite Q4, Len, app_length, rows_length. cbn. f_equal. lia.
  - exact Q5.
  - exact Q6.
  - rewrite app_length, rows_length. cbn. lia.
  - rewrite nth_error_app2, rows_length, Nat.sub_diag by (rewrite rows_length; lia). reflexivity.
  - rewrite lastKid_app; [rewrite rows_length; reflexivity|exact Rn|reflexivity|constructor].
  - destruct (rows (nodes p0)); discriminate.
  - exact Fm.
  - exact Hd'.
  - destruct (items_more d st top (length (nodes p0)) m Tp Mk items p3 X3 Fo' Fs') as (p' & Y1 & Y2 & Y3). exists p'. split.
    { cbn [linesAt flat_map itemLines]. rewrite map_app, runs_app. cbn [map runs]. unfold nl at 1. rewrite <- !app_assoc. cbn [app]. rewrite Q1, X1. exact Y1. }
    split.
    { rewrite Y2, X2. cbn [rowsOf itemRows]. rewrite <- !app_assoc. cbn [app]. rewrite !app_length, !rows_length. cbn [length app]. repeat f_equal; lia. }
    destruct Y3 as (R & m1 & ls1 & Rq & Gq & Spq & Bq & Lq & Zq & Cq & Tlq & Elq & Lkq).
    split; [exact Gq|]. split; [exact Spq|]. split; [exact Cq|]. split; [auto|]. right. right.
    pose proof (rows_nth (nodes p') (length R)) as Ei. rewrite Rq, nth_error_app2, Nat.sub_diag in Ei by lia. cbn [nth_error] in Ei. destruct (nth_error (nodes p') (length R)) as [ni|] eqn:Eni; [|discriminate]. cbn [option_map] in Ei. assert (Ei' : norm ni = itemRow (length (nodes p0)) d m1) by congruence.
    pose proof (rows_nth (nodes p') (length (nodes p0))) as Ell. rewrite Rq, nth_error_app1, Elq in Ell by lia. destruct (nth_error (nodes p') (length (nodes p0))) as [nl0|] eqn:Enl; [|discriminate]. cbn [option_map] in Ell. assert (Ell' : norm nl0 = listRow top m) by congruence.
    exists (length R), ni, nl0. split; [exact Bq|]. split; [exact Eni|]. split; [change (type (norm ni) = ListItem); rewrite Ei'; reflexivity|]. split; [change (0 < indentOrLevel (norm ni))%nat; rewrite Ei'; unfold itemRow, width; cbn; lia|].
    split; [change (parent ni) with (parent (norm ni)); rewrite Ei'; exact Enl|]. split; [change (type (norm nl0) = List_); rewrite Ell'; reflexivity|]. split; [|reflexivity].
    eapply (leaf_last p' (R ++ [itemRow (length (nodes p0)) d m1])); [rewrite Rq, <- app_assoc; reflexivity|rewrite Lq, app_length; cbn; f_equal; lia|reflexivity].
Qed.

(* ---- documents ---- *)
Section SrcInd.
Context (P : src -> Prop) (HP : forall ls, P (Para ls)) (HH : forall n t, P (Head n t)) (HL : forall ls, P (Listing ls)) (HQ : forall l, Forall P l -> P (Quote l)) (HI : forall l, P (Items l)).
Fixpoint src_ind' (b : src) : P b :=
  match b with
  | Para ls => HP ls | Head n t => HH n t | Listing ls => HL ls
  | Quote l => HQ l ((fix go l : Forall P l := match l with [] => Forall_nil P | b :: l => Forall_cons b (src_ind' b) (go l) end) l)
  | Items l => HI l
  end.
End SrcInd.
Definition kindS (b : src) : option (bool * Z) := match b with Items ((m, _) :: _) => Some (kindOf m) | _ => None end.
Lemma itemRows_parents d l items : forall o, (l <= o)%nat -> Forall (fun r => (l <= parent r)%nat) (itemRows d l o items).
Proof. induction items as [|[m ls] items IH]; intros o H; [constructor|]. cbn [itemRows]. constructor; [cbn; lia|]. constructor; [cbn; lia|]. apply IH. lia. Qed.
Lemma rows_shape b : forall d f par o, written d f b -> (par < o)%nat -> exists r X, rowsOf d par o b = r :: X /\ parent r = par /\ kindN r = kindS b /\ Forall (fun r => (o <= parent r)%nat) X.
Proof.
  induction b as [ls|n t|ls|l IH|l] using src_ind'; intros d f par o W L.
  - exists (paraRow par ls), []. cbn; auto.
  - exists (headRow par n t), []. cbn; auto.
  - exists (codeRow par (map (fun l => l ++ [10]) ls)), []. cbn; auto.
  - rewrite rowsOf_quote. exists (quoteRow par), (rowsSeq (S d) o (S o) l). split; [reflexivity|]. split; [reflexivity|]. split; [reflexivity|]. apply written_quote in W. destruct W as (_ & W). assert (H : (o < S o)%nat) by lia. revert f W H. generalize (S o) as o'.
    induction IH as [|b l Hb Hl IHl]; intros o' f W H; [constructor|]. cbn [rowsSeq]. cbn [writtenAll] in W. destruct W as (Wb & _ & Wl). destruct (Hb _ _ o o' Wb H) as (r & X & E & Pr & _ & FX). apply Forall_app. split.
    + rewrite E. constructor; [lia|]. revert FX. apply Forall_impl. intros; lia.
    + eapply IHl; [exact Wl|lia].
  - destruct W as (Fo & W). destruct l as [|[m ls] l]; [contradiction|]. cbn [rowsOf]. exists (listRow par m), (itemRows d o (S o) ((m, ls) :: l)). split; [reflexivity|]. split; [reflexivity|]. split; [|apply itemRows_parents; lia].
    inversion Fo as [|? ? (Mk & _) _]; subst. unfold kindN, listRow, kindS. cbn [type listStartNumber listPunc]. rewrite (start_kind m Mk). cbn [fst]. destruct (kindOf m); reflexivity.
Qed.
Lemma kind_after R d f par b : written d f b -> (par < length R)%nat -> lastKind (R ++ rowsOf d par (length R) b) par = kindS b.
Proof.
  intros W L. destruct (rows_shape b d f par (length R) W L) as (r & X & E & Pr & Kr & FX). rewrite E. unfold lastKind. rewrite lastKid_app; [|intros ->; cbn in L; lia|exact Pr|revert FX; apply Forall_impl; intros; lia]. rewrite nth_error_app2, Nat.sub_diag by lia. cbn [nth_error]. exact Kr.
Qed.
Lemma sep_first {A} (s : A) x y l : sepBy s ((x :: y) :: l) = x :: match l with [] => y | _ => y ++ [s] ++ sepBy s l end.
Proof. destruct l; reflexivity. Qed.
Lemma first_line b : forall d f, written d f b -> exists c r, linesAt d b = (pre d ++ c) :: r /\ solid c.
Proof.
  induction b as [ls|n t|ls|l IH|l] using src_ind'; intros d f W.
  - destruct W as (Ne & F). destruct ls as [|t ls]; [contradiction|]. inversion F as [|? ? ((c & e & H1 & H2 & H3 & _) & _) _]; subst. exists t, (map (fun l => pre d ++ l) ls). split; [reflexivity|]. destruct t as [|x t]; [discriminate H1|]. exists x. split; [left; reflexivity|]. injection H1 as ->. assumption.
  - destruct W as (N & _). exists (repeat 35 n ++ [32] ++ t), []. split; [reflexivity|]. apply firm_solid, hash_firm. lia.
  - destruct W as (_ & Ne & F). destruct ls as [|t ls]; [contradiction|]. inversion F as [|? ? (_ & c & I & Nw) _]; subst. eexists _, _. split; [reflexivity|]. exists c. split; [apply in_or_app; right; exact I|exact Nw].
  - apply written_quote in W. destruct W as (Ne & W). destruct l as [|b l]; [contradiction|]. inversion IH as [|? ? Hb _]; subst. destruct W as (Wb & _). destruct (Hb _ _ Wb) as (c & r & E & Sc). cbn [linesAt map]. rewrite E, sep_first, pre_end, <- app_assoc. eexists ([62; 32] ++ c), _. split; [reflexivity|]. exists 62. split; [left; reflexivity|unfold white; lia].
  - destruct W as (Fo & W). destruct l as [|[m ls] l]; [contradiction|]. inversion Fo as [|? ? (Mk & Ne & _) _]; subst. cbn [fst snd] in *. destruct ls as [|t ls]; [contradiction|]. cbn [linesAt flat_map itemLines app]. eexists _, _. split; [reflexivity|]. apply firm_solid, mark_firm, Mk.
Qed.
Definition blockOk (b : src) : Prop := forall d st f p top, ready d st f p -> hd_error (rev st) = Some top -> written d f b -> (kindS b = None \/ lastKind (rows (nodes p)) top <> kindS b) ->
  exists p', runs p (map nl (linesAt d b)) = Some p' /\ rows (nodes p') = rows (nodes p) ++ rowsOf d top (length (rows (nodes p))) b /\ done d st (codeAfter f b) p'.
Lemma apart_kind b b' : apart b b' -> kindS b' = None \/ kindS b <> kindS b'.
Proof. destruct b as [| | | |[|[m ?] ?]], b' as [| | | |[|[m' ?] ?]]; cbn; intros H; auto; try (right; discriminate). right. intros E. apply H, same_kind. congruence. Qed.
Lemma ready_bound d st f p top : ready d st f p -> hd_error (rev st) = Some top -> (top < length (rows (nodes p)))%nat.
Proof. intros (p0 & (_ & _ & Sp & _) & E & _) Tp. rewrite E, rows_length. eapply top_bound; eassumption. Qed.
Lemma seq_ok l : Forall blockOk l -> forall d st f p top, l <> [] -> ready d st f p -> hd_error (rev st) = Some top -> writtenAll d f l ->
  match l with [] => True | b :: _ => kindS b = None \/ lastKind (rows (nodes p)) top <> kindS b end ->
  exists p' f', runs p (map nl (sepBy (pre d) (map (linesAt d) l))) = Some p' /\ rows (nodes p') = rows (nodes p) ++ rowsSeq d top (length (rows (nodes p))) l /\ done d st f' p'.
Proof.
  induction 1 as [|b l Hb Hl IH]; intros d st f p top Ne Rd Tp W K; [contradiction|]. destruct W as (Wb & Ap & Wl). destruct (Hb d st f p top Rd Tp Wb K) as (p1 & P1 & P2 & P3). cbn [rowsSeq]. destruct l as [|b' l].
  - exists p1, (codeAfter f b). cbn [map sepBy rowsSeq]. rewrite app_nil_r. auto.
  - destruct (blank_ok _ _ _ _ P3) as (p2 & Q1 & Q2 & Q3). pose proof (ready_bound _ _ _ _ _ Rd Tp) as Tb.
    destruct (IH d st (codeAfter f b) p2 top ltac:(discriminate) Q3 Tp Wl) as (p' & f' & X1 & X2 & X3).
    { rewrite Q2, P2, (kind_after _ _ _ _ _ Wb Tb). apply apart_kind, Ap. }
    exists p', f'. split; [|split; [|exact X3]].
    + change (sepBy (pre d) (map (linesAt d) (b :: b' :: l))) with (linesAt d b ++ [pre d] ++ sepBy (pre d) (map (linesAt d) (b' :: l))). rewrite map_app, runs_app, P1, map_app. cbn [map app runs]. unfold nl at 1. rewrite Q1. exact X1.
    + rewrite X2, Q2, P2, <- app_assoc, app_length. reflexivity.
Qed.
Lemma open_good p top : good p -> hd_error (rev (blockNodes p)) = Some top -> good (openQuote p top).
Proof.
  intros G Tp. pose proof (stack_top p top G Tp) as It. unfold openQuote. destruct (make (nodes p) (newNode top BlockQuote)) as [q ns] eqn:M. destruct (make_length _ _ _ _ M) as (_ & <-). destruct G as (G1 & G2). eapply good_push; [exact G1|intros j H; exact H|exact G2|exact M|reflexivity|exact It|reflexivity].
Qed.
Lemma block_ok b : blockOk b.
Proof.
  induction b as [ls|n t|ls|l IH|l] using src_ind'; intros d st f p top Rd Tp W K.
  - destruct W as (Ne & F). apply (para_ok d st f); assumption.
  - destruct W as (N & H & _). apply (head_ok d st f); assumption.
  - destruct W as (-> & Ne & F). apply (code_ok d st); assumption.
  - apply written_quote in W. destruct W as (Ne & W). destruct l as [|b l]; [contradiction|]. pose proof W as (Wb & _). destruct (first_line b _ _ Wb) as (c & r & Ef & Sc).
    set (c' := c ++ [10]). assert (Sc' : solid c') by (destruct Sc as (x & I & Nx); exists x; split; [apply in_or_app; left; exact I|exact Nx]).
    assert (Fi : firm ([62; 32] ++ c')) by (exists 62, (32 :: c'); split; [reflexivity|unfold white; lia]). destruct (ready_step _ _ _ _ _ Rd Fi) as (p0 & C & Rw & St). pose proof C as (G & B & Sp & Fr & Lf).
    set (q := openQuote p0 top). set (st' := st ++ [length (nodes p0)]). assert (Rq : rows (nodes q) = rows (nodes p0) ++ [quoteRow top]). { subst q. unfold openQuote. cbn [nodes]. destruct (make (nodes p0) (newNode top BlockQuote)) as [i ns] eqn:M. exact (rows_make _ _ _ _ M). }
    assert (Gq : good q) by (apply open_good; [exact G|rewrite B; exact Tp]). assert (Sq : spine (nodes q) (S d) st') by (apply spine_open, Sp).
    assert (Cq : clean (S d) st' f q). { split; [exact Gq|]. split; [subst q st'; cbn; rewrite B; reflexivity|]. split; [exact Sq|]. split; [exact Fr|]. destruct Lf as [Lf|(Lf & Cc)]; [left; exact Lf|right; split; [|exact Cc]].
      unfold isLeaf in *. change (leafNode q) with (leafNode p0). destruct (leafNode p0) as [i|]; [|discriminate]. rewrite rows_type in *. rewrite Rq. destruct (nth_error (rows (nodes p0)) i) as [x|] eqn:Ex; [|discriminate]. rewrite nth_error_app1 by (apply nth_error_Some; congruence). rewrite Ex. exact Lf. }
    assert (Tq : hd_error (rev st') = Some (length (nodes p0))) by (subst st'; rewrite rev_app_distr; reflexivity).
    assert (Kq : lastKind (rows (nodes q)) (length (nodes p0)) = None).
    { destruct (row_at (nodes q) (rows (nodes p0)) (quoteRow top) [] (length (nodes p0)) Rq ltac:(rewrite rows_length; reflexivity)) as (n & En & _). pose proof (kids_rows _ _ _ (proj1 Gq) En) as Ek. unfold lastKind, lastKid. rewrite <- Ek.
      assert (Kn : kids n = []). { subst q. unfold openQuote in En. cbn [nodes] in En. destruct (make (nodes p0) (newNode top BlockQuote)) as [i ns] eqn:M. cbn [snd] in En. rewrite (make_nth _ _ _ _ _ M), Nat.eqb_refl in En. injection En as <-. reflexivity. } rewrite Kn. reflexivity. }
    destruct (seq_ok (b :: l) IH (S d) st' f q (length (nodes p0)) Ne) as (p' & f' & X1 & X2 & X3); [exists q; auto|exact Tq|exact W|rewrite Kq; destruct (kindS b); [right; discriminate|left; reflexivity]|].
    exists p'. assert (Run : runs p (map nl (linesAt d (Quote (b :: l)))) = Some p').
    { cbn [linesAt map]. cbn [map] in X1. rewrite Ef, sep_first in X1 |- *. cbn [map runs] in X1 |- *. unfold nl at 1 in X1. unfold nl at 1. rewrite <- app_assoc in X1 |- *. fold c' in X1 |- *. destruct (parseLine q (pre (S d) ++ c')) as [p1|] eqn:Pq; [|discriminate X1].
      pose proof (enter_open p0 d st top c' p1 Sp B Tp Sc' Pq) as Eo. assert (Ep : pre (S d) ++ c' = pre d ++ [62; 32] ++ c') by (rewrite pre_end, <- app_assoc; reflexivity). rewrite Ep in Eo |- *. rewrite St, Eo. exact X1. }
    split; [exact Run|]. split.
    { rewrite rowsOf_quote, X2, Rq, <- app_assoc, Rw, app_length, rows_length. cbn [app length]. do 2 f_equal. f_equal; lia. }
    destruct X3 as (Gd & Sd & Cd & Pd & Dd). assert (Rp : rows (nodes p') = rows (nodes p0) ++ [quoteRow top] ++ rowsSeq (S d) (length (nodes p0)) (length (rows (nodes q))) (b :: l)) by (rewrite X2, Rq, <- app_assoc; reflexivity).
    split; [exact Gd|]. split; [eapply rows_spine; [exact Rp|exact Sp]|]. split; [exact Cd|]. split; [exact Pd|]. right. left.
    assert (Ty : typeOf (nodes p') (length (nodes p0)) = Some BlockQuote) by (rewrite rows_type, Rp, <- (rows_length (nodes p0)), nth_error_app2, Nat.sub_diag by lia; reflexivity).
    destruct Dd as [(Bd & _)|[(q2 & ext & Bd & _)|(it & ? & ? & Bd & _)]]; unfold st' in Bd; exists (length (nodes p0)); [exists []|exists (q2 :: ext)|exists [it]]; (split; [rewrite Bd, <- ?app_assoc; reflexivity|exact Ty]).
  - pose proof W as (_ & W'). destruct l as [|[m ls] l]; [contradiction|]. cbn [kindS] in K. apply (items_ok d st f); try assumption. destruct K as [K|K]; [discriminate|exact K].
Qed.

(* ---- the tree that is made ---- *)
Lemma kids_at ns A B Z x n : tree ns -> rows ns = A ++ B ++ Z -> A <> [] -> (length A <= x)%nat -> Forall (fun r => parent r <> x) Z -> nth_error ns x = Some n -> kids n = kidsFrom (length A) B x.
Proof.
  intros T Rw Na Lx Fz En. rewrite (kids_rows _ _ _ T En), Rw. destruct A as [|a A]; [contradiction|]. cbn [app tl length].
  assert (Fa : Forall (fun r => parent r <> x) A).
  { apply Forall_forall. intros r I. apply In_nth_error in I. destruct I as (j & Ej). intros Pr. assert (Lj : (j < length A)%nat) by (apply nth_error_Some; congruence).
    assert (Er : nth_error (rows ns) (S j) = Some r) by (rewrite Rw; cbn [app nth_error]; rewrite nth_error_app1 by exact Lj; exact Ej).
    rewrite rows_nth in Er. destruct (nth_error ns (S j)) as [nj|] eqn:Ej2; [|discriminate]. cbn [option_map] in Er. injection Er as Er. subst r. pose proof (proj1 (proj2 (proj2 T)) _ _ Ej2 ltac:(lia)). cbn in Pr, Lx. lia. }
  rewrite kidsFrom_app, (kidsFrom_none A _ _ Fa), kidsFrom_app, (kidsFrom_none Z _ _ Fz).
  rewrite app_nil_r. reflexivity.
Qed.
Lemma seq_some {A} (l : list A) : seqOpt (map Some l) = Some l.
Proof. induction l as [|x l IH]; [reflexivity|]. cbn [map seqOpt]. rewrite IH. reflexivity. Qed.
Lemma text_line t : textLine t -> lineOk t.
Proof. intros ((c & _ & H & _) & N & _). split; [intros ->; discriminate H|exact N]. Qed.
Lemma para_doc ns i n par ls fuel : nth_error ns i = Some n -> norm n = paraRow par ls -> doInlines (S fuel) ns i = match expandInlineElements ls with Some l => Some (BPara l) | None => None end.
Proof. intros E N. cbn [doInlines]. rewrite E. assert (type n = Paragraph) as -> by (change (type (norm n) = Paragraph); rewrite N; reflexivity). assert (rawLines n = ls) as -> by (change (rawLines (norm n) = ls); rewrite N; reflexivity). reflexivity. Qed.
Lemma doc_items ns d l : tree ns -> forall items o A Z, rows ns = A ++ itemRows d l o items ++ Z -> length A = o -> (l < o)%nat -> Forall (fun r => (parent r < o \/ o + 2 * length items <= parent r)%nat) Z -> Forall (itemOk' d) items ->
  exists bs, Forall2 (fun it b => exists els, expandInlineElements (snd it) = Some els /\ b = BItem [BPara els]) items bs /\ forall fuel, (2 <= fuel)%nat -> map (doInlines fuel ns) (kidsFrom o (itemRows d l o items) l) = map Some bs.
Proof.
  intros T. induction items as [|[m ls] items IH]; intros o A Z Rw La Lo Fz Fo; [exists []; split; [constructor|reflexivity]|]. inversion Fo as [|? ? (_ & Ne & Ft & _) Fo']; subst. cbn [snd itemRows length] in *.
  destruct (inline_ok ls Ne) as (els & Ee & _); [revert Ft; apply Forall_impl; apply text_line|].
  destruct (IH (S (S (length A))) (A ++ [itemRow l d m; paraRow (length A) ls]) Z) as (bs & F2 & Hb); [rewrite Rw, <- app_assoc; reflexivity|rewrite app_length; cbn; lia|lia|revert Fz; apply Forall_impl; intros; lia|exact Fo'|].
  exists (BItem [BPara els] :: bs). split; [constructor; [exists els; auto|exact F2]|]. intros fuel Hf. cbn [kidsFrom itemRow parent paraRow]. rewrite Nat.eqb_refl. replace (length A =? l)%nat with false by lia. cbn [app map]. rewrite (Hb fuel Hf). f_equal.
  destruct fuel as [|[|fuel]]; [lia|lia|]. cbn [app] in Rw. destruct (row_at ns A _ _ (length A) Rw eq_refl) as (n & En & Nn). destruct (row_at ns (A ++ [itemRow l d m]) (paraRow (length A) ls) (itemRows d l (S (S (length A))) items ++ Z) (S (length A))) as (n2 & En2 & Nn2); [rewrite Rw, <- app_assoc; reflexivity|rewrite app_length; cbn; lia|].
  assert (Na : A <> []) by (intros ->; cbn in Lo; lia).
  assert (Kn : kids n = [S (length A)]).
  { rewrite (kids_at ns A [itemRow l d m; paraRow (length A) ls] (itemRows d l (S (S (length A))) items ++ Z) (length A) n T Rw Na (le_n _)); [cbn [kidsFrom itemRow paraRow parent]; rewrite Nat.eqb_refl; replace (l =? length A)%nat with false by lia; reflexivity| |exact En].
    apply Forall_app. split; [|revert Fz; apply Forall_impl; intros; lia]. assert (G : forall items o, (length A < o)%nat -> Forall (fun r => parent r <> length A) (itemRows d l o items)); [|apply G; lia]. clear -Lo. induction items as [|[m ls] items IH]; intros o H; cbn [itemRows]; [constructor|]. constructor; [cbn; lia|]. constructor; [cbn; lia|]. apply IH. lia. }
  change (doInlines (S (S fuel)) ns (length A)) with (match nth_error ns (length A) with Some n => match type n with
    | Document => None | List_ => do l <- seqOpt (map (doInlines (S fuel) ns) (kids n)); Some (BList (listStartNumber n) (isLoose n) l) | ListItem => do l <- seqOpt (map (doInlines (S fuel) ns) (kids n)); Some (BItem l)
    | BlockQuote => do l <- seqOpt (map (doInlines (S fuel) ns) (kids n)); Some (BQuote l) | Heading => do l <- expandInlineElements (rawLines n); Some (BHeading (indentOrLevel n) [] l) | Paragraph => do l <- expandInlineElements (rawLines n); Some (BPara l) | CodeBlock => Some (BCode (rawLines n)) end | None => None end).
  rewrite En, Kn. assert (type n = ListItem) as -> by (change (type (norm n) = ListItem); rewrite Nn; reflexivity). cbn [map]. rewrite (para_doc _ _ _ _ _ _ En2 Nn2), Ee. reflexivity.
Qed.
Definition blockDoc (b : src) : Prop := forall ns d f par o A Z, tree ns -> rows ns = A ++ rowsOf d par o b ++ Z -> length A = o -> (par < o)%nat -> written d f b ->
  Forall (fun r => (parent r < o \/ o + length (rowsOf d par o b) <= parent r)%nat) Z ->
  exists bl, means b bl /\ forall fuel, (length (rowsOf d par o b) <= fuel)%nat -> doInlines fuel ns o = Some bl.
Lemma seq_shape l : forall d f par o x, writtenAll d f l -> (par < o <= x)%nat -> Forall (fun r => parent r = par \/ (o <= parent r)%nat) (rowsSeq d par o l).
Proof.
  induction l as [|b l IH]; intros d f par o x W L; [constructor|]. destruct W as (Wb & _ & Wl). cbn [rowsSeq]. destruct (rows_shape b d f par o Wb ltac:(lia)) as (r & X & E & Pr & _ & FX). apply Forall_app. split.
  - rewrite E. constructor; [auto|]. revert FX. apply Forall_impl. auto.
  - eapply Forall_impl; [|eapply IH; [exact Wl|split; [|apply le_n]; lia]]. cbn. intros r0 [H|H]; [auto|right; lia].
Qed.
Lemma seq_doc l : Forall blockDoc l -> forall ns d f par o A Z, tree ns -> rows ns = A ++ rowsSeq d par o l ++ Z -> length A = o -> (par < o)%nat -> writtenAll d f l ->
  Forall (fun r => (parent r < o \/ o + length (rowsSeq d par o l) <= parent r)%nat) Z ->
  exists bs, Forall2 means l bs /\ forall fuel, (length (rowsSeq d par o l) <= fuel)%nat -> map (doInlines fuel ns) (kidsFrom o (rowsSeq d par o l) par) = map Some bs.
Proof.
  induction 1 as [|b l Hb Hl IH]; intros ns d f par o A Z T Rw La Lo W Fz; [exists []; split; [constructor|reflexivity]|]. destruct W as (Wb & _ & Wl). cbn [rowsSeq] in *. rewrite app_length in Fz. set (len := length (rowsOf d par o b)) in *.
  pose proof (rows_shape b d f par o Wb Lo) as (r & X & E & Pr & _ & FX). assert (Hl1 : (1 <= len)%nat) by (unfold len; rewrite E; cbn; lia).
  destruct (Hb ns d f par o A (rowsSeq d par (o + len) l ++ Z)) as (bl & M & Hd); try assumption; [rewrite Rw, <- app_assoc; reflexivity| |].
  { apply Forall_app. split; [|revert Fz; apply Forall_impl; intros; fold len; lia]. eapply Forall_impl; [|eapply seq_shape; [exact Wl|split; [|apply le_n]; lia]]. cbn. fold len. intros; lia. }
  destruct (IH ns d (codeAfter f b) par (o + len)%nat (A ++ rowsOf d par o b) Z T) as (bs & F2 & Hs); [rewrite Rw, <- !app_assoc; reflexivity|rewrite app_length; fold len; lia|lia|exact Wl|revert Fz; apply Forall_impl; intros; lia|].
  exists (bl :: bs). split; [constructor; assumption|]. intros fuel Hf. rewrite app_length in Hf. fold len in Hf. rewrite kidsFrom_app, map_app. fold len. rewrite (Hs fuel ltac:(lia)).
  rewrite E. cbn [kidsFrom]. rewrite Pr, Nat.eqb_refl, (kidsFrom_none X) by (revert FX; apply Forall_impl; intros; lia). cbn [app map]. rewrite (Hd fuel) by (fold len; lia). reflexivity.
Qed.
Lemma block_doc b : blockDoc b.
Proof.
  induction b as [ls|n t|ls|l IH|l] using src_ind'; intros ns d f par o A Z T Rw La Lo W Fz.
  - destruct W as (Ne & F). destruct (inline_ok ls Ne) as (els & Ee & _); [revert F; apply Forall_impl; apply text_line|]. exists (BPara els). split; [constructor; exact Ee|]. cbn [rowsOf length]. intros [|fuel] Hf; [lia|]. destruct (row_at ns A (paraRow par ls) Z o Rw (eq_sym La)) as (nd & En & Nn). rewrite (para_doc _ _ _ _ _ _ En Nn), Ee. reflexivity.
  - destruct W as (_ & Hh & Hn). destruct (inline_ok [t] ltac:(discriminate)) as (els & Ee & _); [constructor; [split; [destruct Hh as (c & _ & Hh & _); intros ->; discriminate Hh|exact Hn]|constructor]|]. exists (BHeading n [] els). split; [constructor; exact Ee|]. cbn [rowsOf length]. intros [|fuel] Hf; [lia|]. destruct (row_at ns A (headRow par n t) Z o Rw (eq_sym La)) as (nd & En & Nn).
    cbn [doInlines]. rewrite En. assert (type nd = Heading) as -> by (change (type (norm nd) = Heading); rewrite Nn; reflexivity). assert (rawLines nd = [t]) as -> by (change (rawLines (norm nd) = [t]); rewrite Nn; reflexivity). assert (indentOrLevel nd = n) as -> by (change (indentOrLevel (norm nd) = n); rewrite Nn; reflexivity). rewrite Ee. reflexivity.
  - eexists. split; [constructor|]. cbn [rowsOf length]. intros [|fuel] Hf; [lia|]. destruct (row_at ns A _ Z o Rw (eq_sym La)) as (nd & En & Nn).
    cbn [doInlines]. rewrite En. assert (type nd = CodeBlock) as -> by (change (type (norm nd) = CodeBlock); rewrite Nn; reflexivity). assert (rawLines nd = map (fun l => l ++ [10]) ls) as -> by (change (rawLines (norm nd) = map (fun l => l ++ [10]) ls); rewrite Nn; reflexivity). reflexivity.
  - apply written_quote in W. destruct W as (Ne & W). rewrite rowsOf_quote in *. cbn [length] in *.
    destruct (seq_doc l IH ns (S d) f o (S o) (A ++ [quoteRow par]) Z T) as (bs & F2 & Hs); [rewrite Rw, <- app_assoc; reflexivity|rewrite app_length; cbn; lia|lia|exact W|revert Fz; apply Forall_impl; intros; lia|].
    exists (BQuote bs). split; [constructor; exact F2|]. intros [|fuel] Hf; [lia|]. destruct (row_at ns A (quoteRow par) (rowsSeq (S d) o (S o) l ++ Z) o Rw (eq_sym La)) as (nd & En & Nn).
    cbn [doInlines]. rewrite En. assert (type nd = BlockQuote) as -> by (change (type (norm nd) = BlockQuote); rewrite Nn; reflexivity).
    rewrite (kids_at ns A (quoteRow par :: rowsSeq (S d) o (S o) l) Z o nd T Rw); [|intros ->; cbn in La; lia|lia|revert Fz; apply Forall_impl; intros; lia|exact En]. cbn [kidsFrom]. cbn [quoteRow parent]. replace (par =? o)%nat with false by lia. rewrite La. cbn [app]. rewrite (Hs fuel ltac:(lia)), seq_some. reflexivity.
  - destruct W as (Fo & W). destruct l as [|[m ls] l]; [contradiction|]. cbn [rowsOf] in *. cbn [length] in Fz.
    assert (Li : forall l q o, length (itemRows d q o l) = (2 * length l)%nat) by (clear; intros l; induction l as [|[m ls] l IH]; intros q o; cbn [itemRows length]; [reflexivity|]; rewrite IH; lia).
    destruct (doc_items ns d o T ((m, ls) :: l) (S o) (A ++ [listRow par m]) Z) as (bs & F2 & Hs); [rewrite Rw, <- app_assoc; reflexivity|rewrite app_length; cbn; lia|lia|revert Fz; apply Forall_impl; intros r; rewrite Li; lia|exact Fo|].
    exists (BList (startOf m) false bs). split; [constructor; exact F2|]. intros [|fuel] Hf; [cbn in Hf; lia|]. cbn [length] in Hf. rewrite Li in Hf. cbn [length] in Hf.
    destruct (row_at ns A (listRow par m) (itemRows d o (S o) ((m, ls) :: l) ++ Z) o Rw (eq_sym La)) as (nd & En & Nn).
    change (doInlines (S fuel) ns o) with (match nth_error ns o with Some n => match type n with
    | Document => None | List_ => do l <- seqOpt (map (doInlines fuel ns) (kids n)); Some (BList (listStartNumber n) (isLoose n) l) | ListItem => do l <- seqOpt (map (doInlines fuel ns) (kids n)); Some (BItem l)
    | BlockQuote => do l <- seqOpt (map (doInlines fuel ns) (kids n)); Some (BQuote l) | Heading => do l <- expandInlineElements (rawLines n); Some (BHeading (indentOrLevel n) [] l) | Paragraph => do l <- expandInlineElements (rawLines n); Some (BPara l) | CodeBlock => Some (BCode (rawLines n)) end | None => None end).
    rewrite En. assert (type nd = List_) as -> by (change (type (norm nd) = List_); rewrite Nn; reflexivity). assert (listStartNumber nd = startOf m) as -> by (change (listStartNumber (norm nd) = startOf m); rewrite Nn; reflexivity). assert (isLoose nd = false) as -> by (change (isLoose (norm nd) = false); rewrite Nn; reflexivity).
    rewrite (kids_at ns A (listRow par m :: itemRows d o (S o) ((m, ls) :: l)) Z o nd T Rw); [|intros ->; cbn in La; lia|lia|revert Fz; apply Forall_impl; intros; lia|exact En].
    change (kidsFrom (length A) (listRow par m :: itemRows d o (S o) ((m, ls) :: l)) o) with ((if (par =? o)%nat then [length A] else []) ++ kidsFrom (S (length A)) (itemRows d o (S o) ((m, ls) :: l)) o). replace (par =? o)%nat with false by lia. rewrite La. cbn [app]. rewrite (Hs fuel ltac:(lia)), seq_some. reflexivity.
Qed.

(* ---- the source ---- *)
Definition plain (l : list Z) : Prop := ~ In 10 l.
Lemma plain_app a b : plain a -> plain b -> plain (a ++ b).
Proof. intros A B I. apply in_app_iff in I. destruct I; auto. Qed.
Lemma plain_pre d : plain (pre d).
Proof. induction d as [|d IH]; [intros []|]. rewrite pre_S. apply plain_app; [|exact IH]. cbn. intros [H|[H|[]]]; discriminate H. Qed.
Lemma plain_repeat c n : c <> 10 -> plain (repeat c n).
Proof. intros N I. apply repeat_spec in I. congruence. Qed.
Lemma plain_mark m : markOk m -> plain (markText m).
Proof.
  destruct m as [c|ds q]; cbn [markOk markText]; intros H.
  - intros [->|[]]. cbn in H. lia.
  - destruct H as (D & _ & Q). apply plain_app; [|intros [->|[]]; cbn in Q; lia]. intros I. rewrite Forall_forall in D. specialize (D _ I). unfold digit in D. lia.
Qed.
Lemma plain_sep s l : plain s -> Forall (Forall plain) l -> Forall plain (sepBy s l).
Proof. intros P. induction 1 as [|x l Hx Hl IH]; [constructor|]. cbn [sepBy]. destruct l; [exact Hx|]. apply Forall_app. split; [exact Hx|]. constructor; [exact P|exact IH]. Qed.
Lemma plain_block b : forall d f, written d f b -> Forall plain (linesAt d b).
Proof.
  induction b as [ls|n t|ls|l IH|l] using src_ind'; intros d f W.
  - destruct W as (_ & F). cbn [linesAt]. apply Forall_map. revert F. apply Forall_impl. intros t (_ & N & _). apply plain_app; [apply plain_pre|exact N].
  - destruct W as (_ & _ & N). constructor; [|constructor]. apply plain_app; [apply plain_pre|]. apply plain_app; [apply plain_repeat; lia|]. apply plain_app; [intros [H|[]]; discriminate H|exact N].
  - destruct W as (_ & _ & F). cbn [linesAt]. apply Forall_map. revert F. apply Forall_impl. intros t (N & _). apply plain_app; [apply plain_pre|]. apply plain_app; [|exact N]. unfold plain; cbn; lia.
  - apply written_quote in W. destruct W as (_ & W). cbn [linesAt]. apply plain_sep; [apply plain_pre|]. apply Forall_map. revert f W. induction IH as [|b l Hb Hl IHl]; intros f W; [constructor|]. destruct W as (Wb & _ & Wl). constructor; [eapply Hb; exact Wb|eapply IHl; exact Wl].
  - destruct W as (Fo & _). cbn [linesAt]. induction Fo as [|[m ls] l (Mk & _ & Ft & _) Fo IHl]; [constructor|]. cbn [fst snd] in *. cbn [flat_map]. apply Forall_app. split; [|exact IHl]. destruct ls as [|t ls]; [constructor|]. inversion Ft as [|? ? (_ & Nt & _) Fl]; subst. cbn [itemLines]. constructor.
    + apply plain_app; [apply plain_pre|]. apply plain_app; [apply plain_mark, Mk|]. apply plain_app; [intros [H|[]]; discriminate H|exact Nt].
    + apply Forall_map. revert Fl. apply Forall_impl. intros u (_ & Nu & _). apply plain_app; [apply plain_pre|]. apply plain_app; [apply plain_repeat; lia|exact Nu].
Qed.
Lemma plain_all l : forall d f, writtenAll d f l -> Forall (Forall plain) (map (linesAt d) l).
Proof. induction l as [|b l IH]; intros d f W; [constructor|]. destruct W as (Wb & _ & Wl). constructor; [eapply plain_block; exact Wb|eapply IH; exact Wl]. Qed.
Lemma read_plain l r : plain l -> readLine (l ++ 10 :: r) = (l ++ [10], r).
Proof. induction l as [|c l IH]; intros P; [reflexivity|]. cbn [app readLine]. destruct (Z.eqb_spec c 10) as [->|]; [exfalso; apply P; left; reflexivity|]. rewrite IH; [reflexivity|intros I; apply P; right; exact I]. Qed.
Lemma lines_run ls : Forall plain ls -> forall fuel p, (length (flat_map nl ls) < fuel)%nat -> parseLines fuel p (flat_map nl ls) = runs p (map nl ls).
Proof.
  induction 1 as [|l ls Pl Fl IH]; intros fuel p Hf; (destruct fuel as [|fuel]; [lia|]); [reflexivity|]. cbn [flat_map map runs parseLines] in *. unfold nl at 1 in Hf. rewrite !app_length in Hf. cbn [length] in Hf.
  change (nl l ++ flat_map nl ls) with ((l ++ [10]) ++ flat_map nl ls). rewrite <- app_assoc. cbn [app]. rewrite (read_plain l _ Pl). unfold nl at 2. destruct (l ++ [10]) as [|x y] eqn:E; [destruct l; discriminate E|]. destruct (parseLine p (x :: y)) as [p1|]; [|reflexivity]. apply IH. lia.
Qed.
(** Every written document is read as what it means. *)
Theorem written_read l : writtenAll 0 true l -> exists doc, parse (page l) = Some doc /\ Forall2 means l doc.
Proof.
  intros W. destruct l as [|b l]; [exists []; split; [reflexivity|constructor]|]. set (L := b :: l) in *.
  assert (G0 : good parser0). { split; [|constructor; [exists (newNode 0 Document); split; reflexivity|constructor]]. split; [cbn; lia|]. split; [intros [|[|x]] n E; try discriminate E; injection E as <-; reflexivity|]. split; [intros [|[|j]] n E H; [lia|discriminate E|discriminate E]|]. intros [|[|x]] n E; try discriminate E; injection E as <-; reflexivity. }
  assert (S0 : spine (nodes parser0) 0 [0%nat]) by (split; [reflexivity|]; exists []; split; [reflexivity|split; [reflexivity|constructor]]).
  assert (R0 : ready 0 [0%nat] true parser0). { exists parser0. split; [|auto]. split; [exact G0|]. split; [reflexivity|]. split; [exact S0|]. split; [auto|left; reflexivity]. }
  destruct (seq_ok L) with (d := 0%nat) (st := [0%nat]) (f := true) (p := parser0) (top := 0%nat) as (p' & f' & X1 & X2 & X3).
  - apply Forall_forall. intros; apply block_ok.
  - discriminate.
  - exact R0.
  - reflexivity.
  - exact W.
  - cbn [L]. destruct (kindS b); [right; discriminate|left; reflexivity].
  - destruct X3 as ((T & _) & _). change (length (rows (nodes parser0))) with 1%nat in X2. change (rows (nodes parser0)) with [newNode 0 Document] in X2.
    destruct (seq_doc L) with (ns := nodes p') (d := 0%nat) (f := true) (par := 0%nat) (o := 1%nat) (A := [newNode 0 Document]) (Z := @nil node) as (bs & F2 & Hs); [apply Forall_forall; intros; apply block_doc|exact T|rewrite app_nil_r; exact X2|reflexivity|lia|exact W|constructor|].
    exists bs. split; [|exact F2]. unfold parse, parseBlocks, page. change (fun l : list Z => l ++ [10]) with nl.
    rewrite (lines_run (sepBy [] (map (linesAt 0) L))); [|apply plain_sep; [intros []|eapply plain_all; exact W]|lia]. change (@nil Z) with (pre 0) at 1. rewrite X1. unfold document.
    assert (Ln : length (nodes p') = S (length (rowsSeq 0 0 1 L))) by (rewrite <- rows_length, X2; reflexivity).
    destruct (row_at (nodes p') [] (newNode 0 Document) (rowsSeq 0 0 1 L) 0%nat X2 eq_refl) as (n & En & _). rewrite En. rewrite (kids_rows _ _ _ T En), X2. cbn [tl app]. rewrite (Hs (length (nodes p')) ltac:(lia)). apply seq_some.
Qed.
(** A line that starts with a letter or the like is text. *)
Lemma not_special c t : ~ In c [62; 42; 43; 45; 35] -> ~ digit c -> ~ special (c :: t).
Proof.
  intros N D H. cbn [In] in N. remember (c :: t) as s eqn:E. destruct H as [u|b w u Hb _|ds q w u Hd Hl _ _|n Hn|n w u Hn _].
  - injection E as <- _. lia.
  - injection E as <- _. cbn in Hb. lia.
  - destruct ds as [|x ds]; [cbn in Hl; lia|]. injection E as -> _. inversion Hd; subst. contradiction.
  - destruct n; [lia|]. injection E as <- _. lia.
  - destruct n; [lia|]. injection E as <- _. lia.
Qed.
