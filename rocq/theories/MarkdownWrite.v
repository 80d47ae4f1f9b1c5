(* The parser finds the elements in a text written by MarkdownSpec.write. *)
From Coq Require Import Lia ZifyBool ZifyNat String.
From Verif Require Import MarkdownSpec MarkdownProofs.
Local Open Scope list_scope.
Local Notation length := List.length.
Local Notation "'do' p <- m ; k" := (match m with Some p => k | None => None end) (at level 200, p pattern, m at level 100, k at level 200).

(* ---- merging ---- *)
Lemma addText_app els : forall t u, addText (addText els t) u = addText els (t ++ u).
Proof.
  induction els as [|e els IH]; intros t u; [reflexivity|]. destruct els as [|e2 els].
  - destruct e; cbn; rewrite <- ?app_assoc; reflexivity.
  - change (addText (e :: e2 :: els) t) with (match e with Text _ => e :: addText (e2 :: els) t | _ => e :: addText (e2 :: els) t end).
    change (addText (e :: e2 :: els) (t ++ u)) with (match e with Text _ => e :: addText (e2 :: els) (t ++ u) | _ => e :: addText (e2 :: els) (t ++ u) end).
    rewrite <- IH. assert (N : exists x l, addText (e2 :: els) t = x :: l) by (destruct els; destruct e2; cbn; eauto).
    destruct N as (x & l & N). rewrite N. destruct e; reflexivity.
Qed.
Lemma merge_text L t : addText (merge L) t = merge (L ++ [Text t]).
Proof.
  induction L as [|e L IH]; [reflexivity|]. cbn [app merge]. rewrite <- IH. destruct e; try (destruct (merge L); reflexivity).
  destruct (merge L) as [|[u|?|?| |?|?] r]; try reflexivity; cbn [addText].
  destruct r; [rewrite app_assoc; reflexivity|reflexivity].
Qed.
Definition isText (e : inl) : bool := match e with Text _ => true | _ => false end.
Lemma merge_elem L e : isText e = false -> merge L ++ [e] = merge (L ++ [e]).
Proof.
  intros He. induction L as [|x L IH]; [destruct e; try discriminate; reflexivity|]. cbn [app merge]. rewrite <- IH. destruct x; try reflexivity.
  destruct (merge L) as [|[u|?|?| |?|?] r]; try reflexivity. cbn [app]. destruct e; try discriminate; reflexivity.
Qed.

(* ---- balanced runs ---- *)
Definition wrap (n : nat) (k : list inl) : inl := if (2 <=? n)%nat then Strong k else Emphasis k.
Inductive bal : list delim -> list delim -> Prop :=
| bal_nil : bal [] []
| bal_raw t l l' : bal l l' -> bal (RawText t :: l) (RawText t :: l')
| bal_elem e l l' : bal l l' -> bal (InlineElem e :: l) (InlineElem e :: l')
| bal_em n b b' l l' : (1 <= n <= 2)%nat -> bal b b' -> bal l l' ->
    bal (Run true true false (repeat 42 n) :: b ++ Run true false true (repeat 42 n) :: l) (InlineElem (wrap n (convertToInlineElems b')) :: l').
Lemma bal_app a a' b b' : bal a a' -> bal b b' -> bal (a ++ b) (a' ++ b').
Proof. induction 1; intros Hb; cbn [app]; try constructor; auto. rewrite <- app_assoc. cbn [app]. constructor; auto. Qed.
Definition isRun (d : delim) : bool := match d with Run _ _ _ _ => true | _ => false end.
Definition isOpen (d : delim) : bool := match d with OpenLink _ => true | _ => false end.
Lemma bal_norun y y' : bal y y' -> Forall (fun d => isRun d = false) y'.
Proof. induction 1; constructor; auto. Qed.
Lemma bal_noopen y y' : bal y y' -> Forall (fun d => isOpen d = false) y.
Proof. induction 1; constructor; auto. apply Forall_app. split; [auto|constructor; auto]. Qed.

Lemma nth_mid {A} (a : list A) x b : nth_error (a ++ x :: b) (length a) = Some x.
Proof. rewrite nth_error_app2, Nat.sub_diag; [reflexivity|lia]. Qed.
Lemma findOpener_mid d0 t l : forall m r n, Forall (fun d => isRun d = false) m -> (length d0 <= n <= length d0 + S (length m))%nat -> (length d0 < n)%nat -> forall lo, (lo <= length d0)%nat ->
  findOpener (d0 ++ Run true true l t :: m ++ r) true lo n = Some (length d0).
Proof.
  intros m r n Hm. induction n as [|n IH]; intros H1 H2 lo Hlo; [lia|]. cbn [findOpener]. destruct (Nat.ltb_spec n lo); [lia|].
  destruct (Nat.eq_dec n (length d0)) as [->|Ne]; [rewrite nth_mid; reflexivity|].
  assert (N : exists d, nth_error (d0 ++ Run true true l t :: m ++ r) n = Some d /\ isRun d = false).
  { rewrite nth_error_app2 by lia. destruct (n - length d0)%nat as [|i] eqn:Ei; [lia|]. cbn [nth_error]. rewrite nth_error_app1 by lia.
    destruct (nth_error m i) as [d|] eqn:Ed; [|apply nth_error_None in Ed; lia]. exists d. split; [reflexivity|]. rewrite Forall_forall in Hm. apply Hm. eapply nth_error_In. exact Ed. }
  destruct N as (d & -> & Hd). destruct d; try discriminate; apply IH; lia.
Qed.
Lemma firstn_exact {A} n (l r : list A) : n = length l -> firstn n (l ++ r) = l.
Proof. intros ->. rewrite firstn_app, firstn_all, Nat.sub_diag, firstn_O. apply app_nil_r. Qed.
Definition weights (l : list delim) : nat := list_sum (map weight l).
Lemma weights_app a b : weights (a ++ b) = (weights a + weights b)%nat.
Proof. unfold weights. rewrite map_app, list_sum_app. reflexivity. Qed.
Lemma weights_cons d b : weights (d :: b) = (weight d + weights b)%nat. Proof. reflexivity. Qed.
Lemma weight_pos d : (1 <= weight d)%nat. Proof. destruct d; cbn; lia. Qed.

Lemma emph_bal y y' : bal y y' -> forall d0 lo rest fuel, (lo <= length d0)%nat -> (weights (y ++ rest) < fuel)%nat ->
  exists fuel', emphLoop fuel (d0 ++ y ++ rest) (length d0) lo lo = emphLoop fuel' (d0 ++ y' ++ rest) (length (d0 ++ y')) lo lo /\ (weights rest < fuel')%nat.
Proof.
  induction 1 as [|t l l' Hl IH|e l l' Hl IH|n b b' l l' Hn Hb IHb Hl IHl]; intros d0 lo rest fuel Hlo Hf.
  - exists fuel. rewrite app_nil_r. auto.
  - cbn [app] in *. rewrite weights_cons in Hf. pose proof (weight_pos (RawText t)). destruct fuel as [|fuel]; [lia|]. cbn [emphLoop]. rewrite nth_mid.
    destruct (IH (d0 ++ [RawText t]) lo rest fuel) as (f' & E & F); [rewrite app_length; lia|lia|]. exists f'. split; [|exact F].
    rewrite <- !app_assoc in E. cbn [app] in E. replace (S (length d0)) with (length (d0 ++ [RawText t])) by (rewrite app_length; cbn; lia). exact E.
  - cbn [app] in *. rewrite weights_cons in Hf. pose proof (weight_pos (InlineElem e)). destruct fuel as [|fuel]; [lia|]. cbn [emphLoop]. rewrite nth_mid.
    destruct (IH (d0 ++ [InlineElem e]) lo rest fuel) as (f' & E & F); [rewrite app_length; lia|lia|]. exists f'. split; [|exact F].
    rewrite <- !app_assoc in E. cbn [app] in E. replace (S (length d0)) with (length (d0 ++ [InlineElem e])) by (rewrite app_length; cbn; lia). exact E.
  - set (o := Run true true false (repeat 42 n)) in *. set (c := Run true false true (repeat 42 n)) in *.
    cbn [app] in *. rewrite <- app_assoc in *. cbn [app] in *. rewrite weights_cons in Hf. pose proof (weight_pos o). destruct fuel as [|fuel]; [lia|].
    cbn [emphLoop]. rewrite nth_mid. unfold o at 1.
    destruct (IHb (d0 ++ [o]) lo (c :: l ++ rest) fuel) as (f1 & E1 & F1); [rewrite app_length; lia|lia|].
    rewrite <- !app_assoc in E1. cbn [app] in E1. replace (S (length d0)) with (length (d0 ++ [o])) by (rewrite app_length; cbn; lia). rewrite E1. clear E1.
    rewrite weights_cons in F1. pose proof (weight_pos c). destruct f1 as [|f1]; [lia|]. cbn [emphLoop].
    replace (nth_error (d0 ++ o :: b' ++ c :: l ++ rest) (length (d0 ++ o :: b'))) with (Some c)
      by (change (d0 ++ o :: b' ++ c :: l ++ rest) with (d0 ++ (o :: b') ++ c :: l ++ rest); rewrite app_assoc, nth_mid; reflexivity).
    unfold c at 1. unfold o at 1. rewrite (findOpener_mid d0 (repeat 42 n) false b' (c :: l ++ rest) (length (d0 ++ o :: b')) (bal_norun _ _ Hb)); [|rewrite app_length; cbn [length]; lia|rewrite app_length; cbn [length]; lia|exact Hlo].
    rewrite nth_mid. cbn [runText o]. rewrite Nat.min_id, repeat_length. replace (n =? 0)%nat with false by lia. replace (Nat.min n 2) with n by lia. rewrite Nat.sub_diag. cbn [Nat.eqb app length].
    replace (firstn (length (d0 ++ o :: b') - length d0 - 1) (skipn (S (length d0)) (d0 ++ o :: b' ++ c :: l ++ rest))) with b'.
    2: { change (d0 ++ o :: b' ++ c :: l ++ rest) with (d0 ++ [o] ++ b' ++ c :: l ++ rest). rewrite app_assoc, skipn_exact by (rewrite app_length; cbn; lia). symmetry. apply firstn_exact. rewrite app_length. cbn [length]. lia. }
    rewrite (firstn_exact _ d0) by reflexivity.
    replace (skipn (S (length (d0 ++ o :: b'))) (d0 ++ o :: b' ++ c :: l ++ rest)) with (l ++ rest).
    2: { replace (d0 ++ o :: b' ++ c :: l ++ rest) with ((d0 ++ o :: b' ++ [c]) ++ l ++ rest) by (rewrite <- !app_assoc; cbn [app]; rewrite <- !app_assoc; reflexivity). symmetry. apply skipn_exact. rewrite !app_length. cbn [length]. rewrite app_length. cbn. lia. }
    rewrite Nat.add_0_r. replace (Nat.min lo (S (length d0))) with lo by lia. replace (Nat.min lo (S (length d0))) with lo by lia.
    fold (wrap n (convertToInlineElems b')). set (w := InlineElem (wrap n (convertToInlineElems b'))) in *.
    destruct (IHl (d0 ++ [w]) lo rest f1) as (f2 & E2 & F2); [rewrite app_length; lia|lia|]. exists f2. split; [|exact F2].
    rewrite <- !app_assoc in E2. cbn [app] in E2. replace (S (length d0)) with (length (d0 ++ [w])) by (rewrite app_length; cbn; lia). exact E2.
Qed.
Lemma process_bal a y y' : bal y y' -> processEmphasis (a ++ y) (length a) = Some (convertToInlineElems y', a).
Proof.
  intros H. unfold processEmphasis. destruct (emph_bal _ _ H a (length a) [] (emphFuel (a ++ y))) as (f & E & F); [lia| |].
  { unfold emphFuel. fold (weights (a ++ y)). rewrite !weights_app. cbn. lia. }
  rewrite !app_nil_r in E. rewrite E. destruct f as [|f]; [lia|]. cbn [emphLoop]. rewrite (proj2 (nth_error_None _ _)) by lia.
  rewrite skipn_exact, firstn_exact by reflexivity. reflexivity.
Qed.

(* ---- the loop ---- *)
Definition raw (p : list Z) : list delim := match p with [] => [] | _ => [RawText p] end.
Definition go (X : option (list inl)) (b p r : list Z) (ds : list delim) : Prop :=
  exists fuel f, X = expandLoop fuel (mkic b r []) f ds /\ (f <= length b)%nat /\ skipn f b = p /\ (length r < fuel)%nat.
Lemma flush_raw b r f ds : (f <= length b)%nat -> flushText (mkic b r []) f ds = (length b, ds ++ raw (skipn f b)).
Proof.
  intros H. unfold flushText. cbn [before]. destruct (Nat.ltb_spec f (length b)) as [L|L].
  - destruct (skipn f b) eqn:E; [|reflexivity]. apply (f_equal (@List.length Z)) in E. rewrite skipn_length in E. cbn in E. lia.
  - assert (f = length b) by lia. subst f. rewrite skipn_all. cbn. rewrite app_nil_r. reflexivity.
Qed.
Definition special (c : Z) : bool := (c =? 96) || ((c =? 42) || (c =? 95)) || (c =? 91) || (c =? 93).
Lemma go_char X b p c r ds : special c = false -> go X b p (c :: r) ds -> go X (b ++ [c]) (p ++ [c]) r ds.
Proof.
  intros Hs (fuel & f & E & L & P & F). destruct fuel as [|fuel]; [cbn in F; lia|]. cbn [expandLoop after] in E. unfold expandStep in E. cbn [after] in E. unfold special in Hs. rewrite !orb_false_iff in Hs. destruct Hs as [[[H1 H2] H3] H4].
  rewrite H1 in E. rewrite (proj2 (orb_false_iff _ _) H2) in E. rewrite H3, H4 in E. exists fuel, f. split; [exact E|]. rewrite app_length. cbn [length] in *.
  split; [lia|]. split; [|lia]. rewrite skipn_app. replace (f - length b)%nat with 0%nat by lia. rewrite P. reflexivity.
Qed.
Lemma go_chars X w : forall b p r ds, Forall (fun c => special c = false) w -> go X b p (w ++ r) ds -> go X (b ++ w) (p ++ w) r ds.
Proof.
  induction w as [|c w IH]; intros b p r ds H G; [rewrite !app_nil_r; exact G|]. inversion H; subst. apply go_char in G; [|assumption].
  apply IH in G; [|assumption]. rewrite <- !app_assoc in G. exact G.
Qed.
Lemma span_rep (c : Z) n r : hd_error r <> Some c -> span (fun d => d =? c) (repeat c n ++ r) = (repeat c n, r).
Proof.
  intros H. induction n as [|n IH]; cbn.
  - destruct r as [|d r]; [reflexivity|]. cbn in *. destruct (Z.eqb_spec d c); [congruence|reflexivity].
  - rewrite Z.eqb_refl, IH. reflexivity.
Qed.
Lemma go_run X b p n r ds : (1 <= n)%nat -> hd_error r <> Some 42 -> go X b p (repeat 42 n ++ r) ds ->
  go X (b ++ repeat 42 n) [] r (ds ++ raw p ++ [makeRun true b (repeat 42 n) r]).
Proof.
  intros Hn Hr (fuel & f & E & L & P & F). destruct n as [|n]; [lia|]. destruct fuel as [|fuel]; [cbn in F; lia|]. cbn [repeat app] in E. cbn [expandLoop after] in E. unfold expandStep in E. cbn [after] in E.
  change (42 =? 96) with false in E. change ((42 =? 42) || (42 =? 95)) with true in E. cbv iota in E. rewrite flush_raw in E by assumption. rewrite span_rep in E by assumption.
  exists fuel, (length (b ++ repeat 42 (S n))). split; [subst p; rewrite app_assoc; exact E|]. split; [lia|]. split; [apply skipn_all|]. rewrite app_length in F. cbn [length repeat] in F. lia.
Qed.
Lemma codeSpan_plain r w : forall fuel b out, Forall (fun c => c <> 96) w -> hd_error r <> Some 96 -> (length w < fuel)%nat ->
  getCodeSpan fuel (mkic b (w ++ 96 :: r) []) 1 out = (do t <- spanText (out ++ w); Some (Some (t, mkic (b ++ w ++ [96]) r []))).
Proof.
  induction w as [|c w IH]; intros fuel b out H Hr Hf; (destruct fuel as [|fuel]; [cbn in Hf; lia|]); cbn [getCodeSpan app].
  - unfold validIndex. cbn [after]. cbv iota. change (96 =? 96) with true. cbv iota. pose proof (span_rep 96 0 r Hr) as S. cbn [repeat app] in S. rewrite S. cbn [length Nat.eqb]. rewrite app_nil_r. reflexivity.
  - inversion H; subst. unfold validIndex. cbn [after]. cbv iota. destruct (Z.eqb_spec c 96); [lia|]. unfold step. cbn [before later]. rewrite IH by (auto; cbn in Hf; lia). rewrite <- !app_assoc. reflexivity.
Qed.
Lemma spanText_plain w : w <> [] -> hd_error w <> Some 32 -> Forall (fun c => c <> 10) w -> spanText w = Some w.
Proof.
  intros N H1 H2. assert (M : map unline w = w). { rewrite <- (map_id w) at 2. apply map_ext_in. intros c Hc. rewrite Forall_forall in H2. unfold unline. destruct (Z.eqb_spec c 10); [|reflexivity]. exfalso. exact (H2 c Hc e). }
  destruct (spanText_ok w N) as (t & E & T). rewrite M in E. rewrite E. f_equal. destruct T as [t E2 _|t E2 _].
  - exfalso. fold unline in E2. change (fun c => if c =? 10 then 32 else c) with unline in E2. rewrite M in E2. subst w. apply H1. reflexivity.
  - change (fun c => if c =? 10 then 32 else c) with unline in E2. congruence.
Qed.
Lemma go_code X b p w r ds : w <> [] -> hd_error w <> Some 32 -> Forall (fun c => c <> 96 /\ c <> 10) w -> hd_error r <> Some 96 ->
  go X b p ([96] ++ w ++ [96] ++ r) ds -> go X (b ++ [96] ++ w ++ [96]) [] r (ds ++ raw p ++ [InlineElem (CodeSpan w)]).
Proof.
  intros N H1 H2 Hr (fuel & f & E & L & P & F). destruct fuel as [|fuel]; [cbn in F; lia|]. cbn [app] in E. cbn [expandLoop after] in E. unfold expandStep in E. cbn [after] in E.
  change (96 =? 96) with true in E. cbv iota in E. rewrite flush_raw in E by assumption.
  assert (H96 : Forall (fun c => c <> 96) w) by (eapply Forall_impl; [|exact H2]; cbn; tauto).
  assert (Hw : hd_error (w ++ 96 :: r) <> Some 96). { destruct w as [|c w]; [congruence|]. inversion H96; subst. cbn. congruence. }
  pose proof (span_rep 96 0 _ Hw) as S. cbn [repeat app] in S. rewrite S in E. unfold step in E. cbn [before later] in E.
  rewrite codeSpan_plain in E; [|assumption|assumption|unfold left_; cbn [after]; rewrite app_length; lia].
  cbn [app] in E. rewrite spanText_plain in E; [|assumption|assumption|eapply Forall_impl; [|exact H2]; cbn; tauto].
  exists fuel, (length (b ++ [96] ++ w ++ [96])). split; [subst p; rewrite (app_assoc ds); cbn [app before] in *; rewrite <- (app_assoc b) in E; exact E|]. split; [lia|]. split; [apply skipn_all|]. cbn in F. rewrite !app_length in F. cbn in F. lia.
Qed.
Lemma go_open X b p r ds : go X b p (91 :: r) ds -> go X (b ++ [91]) [] r (ds ++ raw p ++ [OpenLink [91]]).
Proof.
  intros (fuel & f & E & L & P & F). destruct fuel as [|fuel]; [cbn in F; lia|]. cbn [expandLoop after] in E. unfold expandStep in E. cbn [after] in E.
  change (91 =? 96) with false in E. change ((91 =? 42) || (91 =? 95)) with false in E. change (91 =? 91) with true in E. cbv iota in E. rewrite flush_raw in E by assumption.
  exists fuel, (length (b ++ [91])). split; [subst p; rewrite app_assoc; exact E|]. split; [lia|]. split; [apply skipn_all|]. cbn in F. lia.
Qed.
Lemma rfind_none b : forall i f, Forall (fun d => isOpen d = false) b -> rfindOpen b i f = f.
Proof. induction b as [|d b IH]; intros i f H; [reflexivity|]. inversion H; subst. cbn [rfindOpen]. rewrite IH by assumption. destruct d; try reflexivity; discriminate. Qed.
Lemma rfind_mid a t b : Forall (fun d => isOpen d = false) b -> forall i f, rfindOpen (a ++ OpenLink t :: b) i f = Some (i + length a)%nat.
Proof.
  intros H. induction a as [|d a IH]; intros i f; cbn [app rfindOpen].
  - rewrite rfind_none by assumption. cbn. f_equal. lia.
  - rewrite IH. cbn [length]. f_equal. lia.
Qed.
Lemma destLoop_plain r d : forall fuel b out, Forall (fun c => 32 < c /\ ~ In c [40; 41; 92]) d -> (length d < fuel)%nat ->
  destLoop fuel (mkic b (d ++ 41 :: r) []) 0 out = Some (out ++ d, 0%nat, mkic (b ++ d) (41 :: r) []).
Proof.
  induction d as [|c d IH]; intros fuel b out H Hf; (destruct fuel as [|fuel]; [cbn in Hf; lia|]); cbn [destLoop app].
  - unfold validIndex. cbn [after]. cbv iota. change (41 =? 92) with false. change (41 =? 40) with false. change (41 =? 41) with true. cbv iota. rewrite !app_nil_r. reflexivity.
  - inversion H as [|? ? [H1 H2] H3]; subst. cbn [In] in H2. unfold validIndex. cbn [after]. cbv iota.
    destruct (Z.eqb_spec c 92); [lia|]. destruct (Z.eqb_spec c 40); [lia|]. destruct (Z.eqb_spec c 41); [lia|]. destruct (Z.leb_spec c 32); [lia|].
    unfold step. cbn [before later]. rewrite IH by (auto; cbn in Hf; lia). rewrite <- !app_assoc. reflexivity.
Qed.
Lemma skipSpace_stop fuel b c r : isWhite c = false -> skipSpace (S fuel) (mkic b (c :: r) []) = Some (Some (mkic b (c :: r) [])).
Proof. intros H. cbn [skipSpace]. unfold validIndex. cbn [after]. cbv iota. rewrite H. reflexivity. Qed.
Lemma linkDest_plain b d r : Forall (fun c => 32 < c /\ ~ In c [40; 41; 92]) d ->
  parseLinkDestination (mkic b (d ++ 41 :: r) []) = Some (Some (d, mkic (b ++ d ++ [41]) r [])).
Proof.
  intros H. unfold parseLinkDestination. assert (Hc : exists c x, d ++ 41 :: r = c :: x /\ isWhite c = false).
  { destruct d as [|c d]; [exists 41, r; auto|]. exists c, (d ++ 41 :: r). split; [reflexivity|]. inversion H as [|? ? [H1 _]]; subst. apply white_not. unfold white. lia. }
  destruct Hc as (c & x & Ec & Hc). rewrite Ec at 2. rewrite skipSpace_stop by exact Hc. rewrite <- Ec. rewrite destLoop_plain; [|exact H|unfold left_; cbn [after]; rewrite app_length; lia].
  cbn [app]. rewrite skipSpace_stop by reflexivity. cbn [after]. change (41 =? 41) with true. cbv iota. unfold step. cbn [before later]. rewrite <- app_assoc. reflexivity.
Qed.
Lemma go_link X b p d r a t y y' ds : bal (y ++ raw p) y' -> ds = a ++ OpenLink t :: y -> Forall (fun c => 32 < c /\ ~ In c [40; 41; 92]) d ->
  go X b p ([93; 40] ++ d ++ [41] ++ r) ds -> go X (b ++ [93; 40] ++ d ++ [41]) [] r (a ++ [InlineElem (Link d (convertToInlineElems y'))]).
Proof.
  intros Hy -> Hd (fuel & f & E & L & P & F). destruct fuel as [|fuel]; [cbn in F; lia|]. cbn [app] in E. cbn [expandLoop after] in E. unfold expandStep in E. cbn [after] in E.
  change (93 =? 96) with false in E. change ((93 =? 42) || (93 =? 95)) with false in E. change (93 =? 91) with false in E. change (93 =? 93) with true in E. change (40 =? 40) with true in E. cbv iota in E. rewrite flush_raw, P in E by assumption.
  unfold step in E. cbn [before later] in E. rewrite <- (app_assoc a) in E. cbn [app] in E. rewrite rfind_mid in E by (eapply bal_noopen; exact Hy). cbn [Nat.add] in E.
  rewrite linkDest_plain in E by exact Hd. pose proof (process_bal (a ++ [OpenLink t]) _ _ Hy) as Pb.
  replace (length (a ++ [OpenLink t])) with (S (length a)) in Pb by (rewrite app_length; cbn; lia). rewrite <- (app_assoc a) in Pb. cbn [app] in Pb. rewrite Pb in E. rewrite firstn_exact in E by reflexivity.
  exists fuel, (length (b ++ [93; 40] ++ d ++ [41])). rewrite <- !app_assoc in E. split; [exact E|]. split; [lia|]. split; [apply skipn_all|]. cbn in F. rewrite !app_length in F. cbn in F. lia.
Qed.
Lemma go_end X b p ds : go X b p [] ds -> X = (do (els, _) <- processEmphasis (ds ++ raw p) 0; Some els).
Proof. intros (fuel & f & E & L & P & F). destruct fuel as [|fuel]; [lia|]. cbn [expandLoop after] in E. rewrite flush_raw in E by assumption. cbn [later] in E. rewrite P in E. exact E. Qed.

(* ---- items ---- *)
Lemma item_ind' (P : item -> Prop) (HW : forall t, P (W t)) (HC : forall t, P (C t)) (HE : forall l, Forall P l -> P (Em l)) (HS : forall l, Forall P l -> P (St l))
  (HL : forall l d, Forall P l -> P (Lk l d)) : forall i, P i.
Proof.
  fix IH 1. intros i.
  assert (A : forall l : list item, (fix ok (l : list item) : Prop := match l with [] => True | i :: l => P i /\ ok l end) l -> Forall P l).
  { clear IH. induction l as [|j l IHl]; intros H; constructor; [apply H|apply IHl, H]. }
  destruct i as [t|t|l|l|l d]; [apply HW|apply HC|apply HE|apply HS|apply HL]; apply A; clear A; induction l as [|j l IHl]; try exact I; split; auto.
Qed.
Lemma letter_facts c : letter c -> special c = false /\ isWhite c = false /\ isAscPunc c = false /\ c <> 42.
Proof. intros (H & H1 & H2 & H3 & H4). repeat split; [unfold special; lia|apply white_not; exact H|unfold isAscPunc; lia|lia]. Qed.
Lemma plain_special t : plainText t -> Forall (fun c => special c = false) t.
Proof. intros (_ & _ & H). eapply Forall_impl; [|exact H]. cbn. intros c Hc. unfold special. lia. Qed.

Definition st (X : option (list inl)) (b r : list Z) (base y y' : list delim) (p : list Z) (L : list inl) : Prop :=
  go X b p r (base ++ y) /\ bal y y' /\ convertToInlineElems (y' ++ raw p) = merge L.
Lemma conv_snoc y d : convertToInlineElems (y ++ [d]) = convert1 (convertToInlineElems y) d.
Proof. unfold convertToInlineElems. rewrite fold_left_app. reflexivity. Qed.
Lemma conv_raw y p t : t <> [] -> convertToInlineElems (y ++ raw (p ++ t)) = addText (convertToInlineElems (y ++ raw p)) t.
Proof.
  intros N. destruct p as [|c p].
  - cbn [app raw]. rewrite app_nil_r. destruct t; [congruence|]. cbn [raw]. rewrite conv_snoc. reflexivity.
  - cbn [app raw]. rewrite !conv_snoc. cbn [convert1]. rewrite addText_app. reflexivity.
Qed.
Lemma st_text X b t r base y y' p L : t <> [] -> Forall (fun c => special c = false) t -> st X b (t ++ r) base y y' p L -> st X (b ++ t) r base y y' (p ++ t) (L ++ [Text t]).
Proof.
  intros N H (G & B & E). split; [apply go_chars; assumption|]. split; [exact B|]. rewrite conv_raw by exact N. rewrite E. apply merge_text.
Qed.
Lemma bal_rawp p : bal (raw p) (raw p).
Proof. destruct p; repeat constructor. Qed.
Lemma st_elem X b b2 r r2 base y y' p L e : isText e = false -> st X b r base y y' p L -> go X b2 [] r2 (base ++ y ++ raw p ++ [InlineElem e]) ->
  st X b2 r2 base (y ++ raw p ++ [InlineElem e]) (y' ++ raw p ++ [InlineElem e]) [] (L ++ [e]).
Proof.
  intros He (G & B & E) G2. split; [exact G2|]. split; [apply bal_app; [exact B|apply bal_app; [apply bal_rawp|repeat constructor]]|].
  cbn [raw]. rewrite app_nil_r, app_assoc, conv_snoc, E. cbn [convert1]. apply merge_elem. exact He.
Qed.

Definition bOk (b : list Z) : Prop := b = [] \/ hd_error (rev b) = Some 32.
Definition rOk (r : list Z) : Prop := r = [] \/ hd_error r = Some 32.
Lemma open_run b n r c : bOk b -> hd_error r = Some c -> letter c -> makeRun true b (repeat 42 n) r = Run true true false (repeat 42 n).
Proof.
  intros Hb Hr Hc. apply letter_facts in Hc. destruct Hc as (_ & H1 & H2 & _). destruct r as [|d r]; [discriminate|]. injection Hr as ->. unfold makeRun. rewrite H1, H2.
  destruct Hb as [->|Hb]; [reflexivity|]. destruct (rev b) as [|x l]; [discriminate|]. injection Hb as ->. reflexivity.
Qed.
Lemma close_run b n r c : rOk r -> hd_error (rev b) = Some c -> letter c -> makeRun true b (repeat 42 n) r = Run true false true (repeat 42 n).
Proof.
  intros Hr Hb Hc. apply letter_facts in Hc. destruct Hc as (_ & H1 & H2 & _). unfold makeRun. destruct (rev b) as [|d l]; [discriminate|]. injection Hb as ->. rewrite H1, H2.
  destruct Hr as [->|Hr]; [reflexivity|]. destruct r as [|x r]; [discriminate|]. injection Hr as ->. reflexivity.
Qed.
Definition flat (l : list item) : list inl := match l with [] => [] | i :: l => meant i :: flat_map (fun e => [Text [32]; e]) (map meant l) end.
Definition item_goes (i : item) : Prop := itemOk i -> forall X b r base y y' p L, isW i \/ bOk b -> isW i \/ rOk r -> st X b (write i ++ r) base y y' p L ->
  exists y2 y2' p2, st X (b ++ write i) r base y2 y2' p2 (L ++ [meant i]).
Lemma hd_app {A} (a b : list A) c : hd_error a = Some c -> hd_error (a ++ b) = Some c.
Proof. destruct a; [discriminate|]. cbn. auto. Qed.
Lemma tail_goes l : Forall item_goes l -> Forall itemOk l -> forall X b r base y y' p L, rOk r \/ (forall j, hd_error (rev l) = Some j -> isW j) ->
  st X b (flat_map (fun s => [32] ++ s) (map write l) ++ r) base y y' p L ->
  exists y2 y2' p2, st X (b ++ flat_map (fun s => [32] ++ s) (map write l)) r base y2 y2' p2 (L ++ flat_map (fun e => [Text [32]; e]) (map meant l)).
Proof.
  induction l as [|i l IH]; intros Hg Ho X b r base y y' p L Hr S.
  - exists y, y', p. cbn [map flat_map]. rewrite !app_nil_r. exact S.
  - inversion Hg as [|? ? Gi Gl]; subst. inversion Ho as [|? ? Oi Ol]; subst. cbn [map flat_map] in *. rewrite <- !app_assoc in S.
    apply st_text in S; [|discriminate|constructor; [reflexivity|constructor]].
    assert (Ri : isW i \/ rOk (flat_map (fun s => [32] ++ s) (map write l) ++ r)).
    { destruct l as [|j l]; [|right; right; reflexivity]. cbn [map flat_map app]. destruct Hr as [Hr|Hr]; [right; exact Hr|left; apply Hr; reflexivity]. }
    destruct (Gi Oi _ _ _ _ _ _ _ _ (or_intror (or_intror (last_snoc b 32))) Ri S) as (y2 & y2' & p2 & S2).
    assert (Hr2 : rOk r \/ (forall j, hd_error (rev l) = Some j -> isW j)).
    { destruct Hr as [Hr|Hr]; [left; exact Hr|right]. intros j Hj. apply Hr. cbn [rev]. apply hd_app. exact Hj. }
    destruct (IH Gl Ol _ _ _ _ _ _ _ _ Hr2 S2) as (y3 & y3' & p3 & S3). exists y3, y3', p3. rewrite <- !app_assoc in S3. rewrite <- !app_assoc. exact S3.
Qed.
Lemma items_go l : l <> [] -> Forall item_goes l -> Forall itemOk l -> forall X b r base y y' p L, bOk b \/ (forall i, hd_error l = Some i -> isW i) ->
  rOk r \/ (forall j, hd_error (rev l) = Some j -> isW j) -> st X b (spaced (map write l) ++ r) base y y' p L ->
  exists y2 y2' p2, st X (b ++ spaced (map write l)) r base y2 y2' p2 (L ++ flat l).
Proof.
  intros N Hg Ho X b r base y y' p L Hb Hr S. destruct l as [|i l]; [congruence|]. cbn [map spaced flat] in *. rewrite <- app_assoc in S. inversion Hg as [|? ? Gi Gl]; subst. inversion Ho as [|? ? Oi Ol]; subst.
  assert (Bi : isW i \/ bOk b) by (destruct Hb as [Hb|Hb]; [right; exact Hb|left; apply Hb; reflexivity]).
  assert (Ri : isW i \/ rOk (flat_map (fun s => [32] ++ s) (map write l) ++ r)).
  { destruct l as [|j l]; [|right; right; reflexivity]. cbn [map flat_map app]. destruct Hr as [Hr|Hr]; [right; exact Hr|left; apply Hr; reflexivity]. }
  destruct (Gi Oi _ _ _ _ _ _ _ _ Bi Ri S) as (y2 & y2' & p2 & S2).
  assert (Hr2 : rOk r \/ (forall j, hd_error (rev l) = Some j -> isW j)).
  { destruct Hr as [Hr|Hr]; [left; exact Hr|right]. intros j Hj. apply Hr. cbn [rev]. apply hd_app. exact Hj. }
  destruct (tail_goes l Gl Ol _ _ _ _ _ _ _ _ Hr2 S2) as (y3 & y3' & p3 & S3). exists y3, y3', p3. rewrite <- !app_assoc in S3. exact S3.
Qed.

Lemma spaced_snoc l s : spaced (l ++ [s]) = match l with [] => s | _ => spaced l ++ [32] ++ s end.
Proof. destruct l as [|x l]; [cbn; apply app_nil_r|]. cbn [app spaced]. rewrite flat_map_app. cbn [flat_map]. rewrite app_nil_r, <- app_assoc. reflexivity. Qed.
Lemma body_first l : body l -> Forall itemOk l -> exists c, hd_error (spaced (map write l)) = Some c /\ letter c.
Proof.
  intros (i & j & Hi & _ & Wi & _) H. destruct l as [|x l]; [discriminate|]. injection Hi as ->. inversion H as [|? ? Ho]; subst. destruct i; try destruct Wi. inversion Ho as [? Hp| | | |]; subst.
  destruct Hp as ((c & Hc & Lc) & _). exists c. split; [|exact Lc]. cbn [map write spaced]. apply hd_app. exact Hc.
Qed.
Lemma body_last l : body l -> Forall itemOk l -> exists c, hd_error (rev (spaced (map write l))) = Some c /\ letter c.
Proof.
  intros (i & j & _ & Hj & _ & Wj) H. destruct (hd_rev_snoc _ _ Hj) as (m & ->). apply Forall_app in H. destruct H as [_ H]. inversion H as [|? ? Ho]; subst. destruct j; try destruct Wj. inversion Ho as [? Hp| | | |]; subst.
  destruct Hp as (_ & (c & Hc & Lc) & _). exists c. split; [|exact Lc]. rewrite map_app. cbn [map write]. rewrite spaced_snoc. destruct (map write m); [exact Hc|]. rewrite !rev_app_distr, <- app_assoc. apply hd_app. exact Hc.
Qed.
Lemma body_W l : body l -> l <> [] /\ (forall i, hd_error l = Some i -> isW i) /\ (forall j, hd_error (rev l) = Some j -> isW j).
Proof. intros (i & j & Hi & Hj & Wi & Wj). split; [intros ->; discriminate|]. split; intros k Hk; congruence. Qed.
Lemma between_flat l : between (map meant l) = merge (flat l).
Proof. destruct l; reflexivity. Qed.

Lemma run_goes n l : (1 <= n <= 2)%nat -> body l -> Forall item_goes l -> Forall itemOk l -> forall X b r base y y' p L, bOk b -> rOk r ->
  st X b ((repeat 42 n ++ spaced (map write l) ++ repeat 42 n) ++ r) base y y' p L ->
  exists y2 y2' p2, st X (b ++ repeat 42 n ++ spaced (map write l) ++ repeat 42 n) r base y2 y2' p2 (L ++ [wrap n (between (map meant l))]).
Proof.
  intros Hn Hbody Hg Ho X b r base y y' p L Hb Hr S. destruct (body_first l Hbody Ho) as (c & Hc & Lc). destruct (body_last l Hbody Ho) as (d & Hd & Ld). destruct (body_W l Hbody) as (N & W1 & W2).
  destruct S as (G & B & E). rewrite <- !app_assoc in G. apply go_run in G; [|lia|rewrite (hd_app _ _ _ Hc); apply letter_facts in Lc; intros K; injection K as ->; tauto].
  rewrite (open_run b n _ c Hb (hd_app _ _ _ Hc) Lc) in G. set (o := Run true true false (repeat 42 n)) in *.
  assert (S0 : st X (b ++ repeat 42 n) (spaced (map write l) ++ repeat 42 n ++ r) (base ++ y ++ raw p ++ [o]) [] [] [] []).
  { split; [rewrite app_nil_r, <- (app_assoc base) in *; exact G|]. split; constructor. }
  destruct (items_go l N Hg Ho _ _ _ _ _ _ _ _ (or_intror W1) (or_intror W2) S0) as (y2 & y2' & p2 & G2 & B2 & E2).
  apply go_run in G2; [|lia|destruct Hr as [->|Hr]; [discriminate|rewrite Hr; discriminate]].
  rewrite (close_run _ n r d Hr) in G2; [|rewrite rev_app_distr; apply hd_app; exact Hd|exact Ld]. set (cl := Run true false true (repeat 42 n)) in *.
  cbn [app] in E2. rewrite <- between_flat in E2. rewrite <- E2. set (w := wrap n (convertToInlineElems (y2' ++ raw p2))).
  exists (y ++ raw p ++ [o] ++ (y2 ++ raw p2) ++ [cl]), (y' ++ raw p ++ [InlineElem w]), []. split.
  - rewrite <- !app_assoc in *. exact G2.
  - split.
    + apply bal_app; [exact B|]. apply bal_app; [apply bal_rawp|]. cbn [app]. apply bal_em; [exact Hn|apply bal_app; [exact B2|apply bal_rawp]|constructor].
    + cbn [raw]. rewrite app_nil_r, app_assoc, conv_snoc, E. cbn [convert1]. apply merge_elem. unfold w, wrap. destruct (2 <=? n)%nat; reflexivity.
Qed.

Lemma item_goes_all i : item_goes i.
Proof.
  induction i as [t|t|l Hl|l Hl|l d Hl] using item_ind'; intros Ho X b r base y y' p L Hb Hr S; inversion Ho; subst.
  - exists y, y', (p ++ t). apply st_text; [|apply plain_special; assumption|exact S]. match goal with H : plainText t |- _ => destruct H as ((c & H & _) & _) end. intros ->. discriminate.
  - destruct Hr as [[]|Hr]. exists (y ++ raw p ++ [InlineElem (CodeSpan t)]), (y' ++ raw p ++ [InlineElem (CodeSpan t)]), []. eapply st_elem; [reflexivity|exact S|].
    destruct S as (G & _). cbn [write] in G. rewrite <- !app_assoc in G. apply go_code in G; try assumption; [|destruct Hr as [->|Hr]; [discriminate|rewrite Hr; discriminate]]. rewrite <- (app_assoc base) in G. exact G.
  - destruct Hb as [[]|Hb]. destruct Hr as [[]|Hr]. eapply (run_goes 1 l ltac:(lia)); eassumption.
  - destruct Hb as [[]|Hb]. destruct Hr as [[]|Hr]. eapply (run_goes 2 l ltac:(lia)); eassumption.
  - match goal with H : body l |- _ => destruct (body_W l H) as (N & W1 & W2) end. cbn [write] in *. pose proof S as (G & B & E). rewrite <- !app_assoc in G. apply go_open in G.
    assert (S0 : st X (b ++ [91]) (spaced (map write l) ++ [93; 40] ++ d ++ [41] ++ r) (base ++ y ++ raw p ++ [OpenLink [91]]) [] [] [] []).
    { split; [rewrite app_nil_r, <- (app_assoc base) in *; exact G|]. split; constructor. }
    destruct (items_go l N Hl ltac:(assumption) _ _ _ _ _ _ _ _ (or_intror W1) (or_intror W2) S0) as (y2 & y2' & p2 & G2 & B2 & E2).
    cbn [app] in E2. rewrite <- between_flat in E2. cbn [meant]. rewrite <- E2.
    exists (y ++ raw p ++ [InlineElem (Link d (convertToInlineElems (y2' ++ raw p2)))]), (y' ++ raw p ++ [InlineElem (Link d (convertToInlineElems (y2' ++ raw p2)))]), [].
    eapply st_elem; [reflexivity|exact S|].
    apply (go_link _ _ _ d _ (base ++ y ++ raw p) [91] y2 (y2' ++ raw p2)) in G2; [|apply bal_app; [exact B2|apply bal_rawp]|rewrite <- !app_assoc; reflexivity|assumption].
    rewrite <- !app_assoc in *. exact G2.
Qed.

Theorem write_ok l : l <> [] -> Forall itemOk l -> expandInlineElements [spaced (map write l)] = Some (between (map meant l)).
Proof.
  intros N Ho. assert (Ne : spaced (map write l) <> []).
  { destruct l as [|i l]; [congruence|]. inversion Ho as [|? ? H]; subst. cbn [map spaced]. intros K. apply app_eq_nil in K. destruct K as [K _].
    inversion H as [? ((c & Hc & _) & _)| | | |]; subst; cbn [write] in K; subst; discriminate. }
  set (line := spaced (map write l)) in *. set (X := expandInlineElements [line]).
  assert (S : st X [] (line ++ []) [] [] [] [] []).
  { split; [|split; constructor]. exists (S (left_ (mkic [] line []))), 0%nat. rewrite app_nil_r. split; [unfold X, expandInlineElements; destruct line; [congruence|reflexivity]|].
    split; [lia|]. split; [reflexivity|]. unfold left_. cbn [after later]. lia. }
  assert (Hg : Forall item_goes l) by (apply Forall_forall; intros i _; apply item_goes_all).
  destruct (items_go l N Hg Ho X [] [] [] [] [] [] [] (or_introl (or_introl eq_refl)) (or_introl (or_introl eq_refl)) S) as (y & y' & p & G & B & E).
  apply go_end in G. rewrite G. cbn [app]. pose proof (process_bal [] (y ++ raw p) (y' ++ raw p) (bal_app _ _ _ _ B (bal_rawp p))) as P. cbn [app length] in P. rewrite P, E, between_flat. reflexivity.
Qed.

(* ---- where the parser goes wrong ---- *)
Lemma go_start line : line <> [] -> go (expandInlineElements [line]) [] [] line [].
Proof.
  intros N. exists (S (left_ (mkic [] line []))), 0%nat. split; [unfold expandInlineElements; destruct line; [congruence|reflexivity]|].
  split; [lia|]. split; [reflexivity|]. unfold left_. cbn [after later]. lia.
Qed.
Lemma raw_ne x : x <> [] -> raw x = [RawText x]. Proof. destruct x; [congruence|reflexivity]. Qed.
(* Stars inside a word: the first run can open and close; having found nothing to close, it cannot open any more. *)
Theorem intraword x y : plainText x -> plainText y -> expandInlineElements [x ++ [42] ++ y ++ [42]] = Some [Text (x ++ [42] ++ y ++ [42])].
Proof.
  intros Hx Hy. pose proof (plain_special x Hx) as Sx. pose proof (plain_special y Hy) as Sy.
  destruct Hx as ((a & Ha & La) & (b & Hb & Lb) & _). destruct Hy as ((c & Hc & Lc) & (d & Hd & Ld) & _).
  assert (Nx : x <> []) by (intros ->; discriminate). assert (Ny : y <> []) by (intros ->; discriminate).
  pose proof (go_start (x ++ [42] ++ y ++ [42]) ltac:(destruct x; discriminate)) as G. set (X := expandInlineElements _) in *.
  apply go_chars in G; [|exact Sx]. cbn [app] in G. change (42 :: y ++ [42]) with (repeat 42 1 ++ y ++ [42]) in G.
  pose proof (letter_facts c Lc) as (_ & c1 & c2 & c3). pose proof (letter_facts b Lb) as (_ & b1 & b2 & _). pose proof (letter_facts d Ld) as (_ & d1 & d2 & _).
  apply go_run in G; [|lia|rewrite (hd_app _ _ _ Hc); congruence].
  assert (R1 : makeRun true x (repeat 42 1) (y ++ [42]) = Run true true true [42]).
  { unfold makeRun. destruct (rev x) as [|b' rx]; [discriminate|]. injection Hb as ->. destruct y as [|c' y]; [discriminate|]. injection Hc as ->. cbn [app]. rewrite b1, b2, c1, c2. reflexivity. }
  rewrite R1 in G. cbn [app] in G. apply go_chars in G; [|exact Sy]. cbn [app] in G. apply (go_run X _ _ 1 [] _) in G; [|lia|discriminate].
  assert (R2 : makeRun true ((x ++ repeat 42 1) ++ y) (repeat 42 1) [] = Run true false true [42]).
  { unfold makeRun. rewrite rev_app_distr. destruct (rev y) as [|d' ry]; [discriminate|]. injection Hd as ->. cbn [app]. rewrite d1, d2. reflexivity. }
  rewrite R2 in G. apply go_end in G. rewrite G. cbn [app raw]. rewrite !raw_ne by assumption. cbn. rewrite <- !app_assoc. reflexivity.
Qed.

(* A backslash before a punctuation character in the destination of a link: the character is written twice. *)
Lemma destLoop_run u r : forall fuel b nest out, Forall (fun c => 32 < c /\ ~ In c [40; 41; 92]) u -> (length u <= fuel)%nat ->
  destLoop fuel (mkic b (u ++ r) []) nest out = destLoop (fuel - length u) (mkic (b ++ u) r []) nest (out ++ u).
Proof.
  induction u as [|c u IH]; intros fuel b nest out H Hf; [rewrite !app_nil_r; cbn [app length]; rewrite Nat.sub_0_r; reflexivity|]. destruct fuel as [|fuel]; [cbn in Hf; lia|]. cbn [destLoop app].
  inversion H as [|? ? [H1 H2] H3]; subst. cbn [In] in H2. unfold validIndex. cbn [after]. cbv iota.
  destruct (Z.eqb_spec c 92); [lia|]. destruct (Z.eqb_spec c 40); [lia|]. destruct (Z.eqb_spec c 41); [lia|]. destruct (Z.leb_spec c 32); [lia|].
  unfold step. cbn [before later]. rewrite IH by (auto; cbn in Hf; lia). rewrite <- !app_assoc. reflexivity.
Qed.
Lemma linkDest_backslash b u p v r : Forall (fun c => 32 < c /\ ~ In c [40; 41; 92]) (u ++ [p] ++ v) -> isAscPunc p = true ->
  parseLinkDestination (mkic b ((u ++ [92] ++ [p] ++ v) ++ 41 :: r) []) = Some (Some (u ++ [p] ++ [p] ++ v, mkic (b ++ (u ++ [92] ++ [p] ++ v) ++ [41]) r [])).
Proof.
  intros H Hp. apply Forall_app in H. destruct H as [Hu H]. inversion H as [|? ? [Hp1 Hp2] Hv]; subst. cbn [In] in Hp2. unfold parseLinkDestination.
  set (line := (u ++ [92] ++ [p] ++ v) ++ 41 :: r). assert (El : line = u ++ 92 :: p :: v ++ 41 :: r) by (unfold line; rewrite <- !app_assoc; reflexivity).
  assert (Hc : exists c x, line = c :: x /\ isWhite c = false).
  { rewrite El. destruct u as [|c u]; [exists 92, (p :: v ++ 41 :: r); auto|]. exists c, (u ++ 92 :: p :: v ++ 41 :: r). split; [reflexivity|]. inversion Hu as [|? ? [H1 _]]; subst. apply white_not. unfold white. lia. }
  destruct Hc as (c & x & Ec & Hc). rewrite Ec at 2. rewrite skipSpace_stop by exact Hc. rewrite <- Ec. rewrite El at 2. rewrite destLoop_run; [|exact Hu|unfold left_; cbn [after]; rewrite El, app_length; lia].
  cbn [app]. remember (S (left_ (mkic b line [])) - length u)%nat as f eqn:Ef. unfold left_ in Ef. cbn [after later map list_sum fold_right] in Ef. rewrite El, app_length in Ef. cbn [length] in Ef. rewrite app_length in Ef. cbn [length] in Ef.
  destruct f as [|f]; [lia|]. cbn [destLoop]. unfold validIndex at 1. cbn [after]. cbv iota. change (92 =? 92) with true. cbv iota. unfold step at 1. cbn [before later]. unfold validIndex at 1. cbn [after]. cbv iota. cbn [step after hd_error]. rewrite Hp.
  cbn [app]. unfold step. cbn [before later]. change (p :: v ++ 41 :: r) with ((p :: v) ++ 41 :: r). rewrite destLoop_plain; [|exact H|cbn [length]; lia].
  rewrite skipSpace_stop by reflexivity. cbn [after]. change (41 =? 41) with true. cbv iota. unfold step. cbn [before later]. rewrite <- !app_assoc. reflexivity.
Qed.
Theorem backslash x u p v : plainText x -> Forall (fun c => 32 < c /\ ~ In c [40; 41; 92]) (u ++ [p] ++ v) -> isAscPunc p = true ->
  expandInlineElements [[91] ++ x ++ [93; 40] ++ (u ++ [92] ++ [p] ++ v) ++ [41]] = Some [Link (u ++ [p] ++ [p] ++ v) [Text x]].
Proof.
  intros Hx H Hp. set (raw_ := u ++ [92] ++ [p] ++ v) in *. pose proof (go_start ([91] ++ x ++ [93; 40] ++ raw_ ++ [41]) ltac:(discriminate)) as G. set (X := expandInlineElements _) in *.
  apply go_open in G. apply go_chars in G; [|apply plain_special; exact Hx]. cbn [app] in G. destruct G as (fuel & f & E & L & P & F).
  destruct fuel as [|fuel]; [cbn in F; lia|]. cbn [app] in E. cbn [expandLoop after] in E. unfold expandStep in E. cbn [after] in E.
  change (93 =? 96) with false in E. change ((93 =? 42) || (93 =? 95)) with false in E. change (93 =? 91) with false in E. change (93 =? 93) with true in E. change (40 =? 40) with true in E. cbv iota in E. rewrite flush_raw, P in E by exact L.
  unfold step in E. cbn [before later] in E. assert (Nx : x <> []) by (destruct Hx as ((c & K & _) & _); intros ->; discriminate). cbn [raw app] in E. rewrite raw_ne in E by exact Nx. cbn [app rfindOpen] in E.
  unfold raw_ in E. change [41] with (41 :: []) in E. rewrite linkDest_backslash in E by assumption.
  pose proof (process_bal [OpenLink [91]] [RawText x] [RawText x] ltac:(repeat constructor)) as Pb. cbn [app length] in Pb. rewrite Pb in E. cbn [firstn app] in E.
  destruct fuel as [|fuel]; [cbn in F; lia|]. cbn [expandLoop after later] in E. rewrite flush_raw in E by (cbn [before]; lia). cbn [before] in E. rewrite skipn_all in E. rewrite E. reflexivity.
Qed.
