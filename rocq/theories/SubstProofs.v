(* Proofs about substitutions. *)
From Coq Require Import String.
From Verif Require Import Base Txt SubstModel SubstSpec StringViewProofs.
Local Open Scope string_scope.
Local Open Scope list_scope.
Local Open Scope Z_scope.
Local Notation length := List.length.

Lemma view_mid a b c : view (a ++ b ++ c) (length a) (length b) = b.
Proof. unfold view. rewrite skipn_app, skipn_all, Nat.sub_diag, app_nil_l, skipn_O, firstn_app, Nat.sub_diag, firstn_O, app_nil_r. apply firstn_all. Qed.
Lemma view_rest a b : view (a ++ b) (length a) (length (a ++ b) - length a) = b.
Proof. replace (length (a ++ b) - length a)%nat with (length b) by (rewrite app_length; lia). rewrite <- (app_nil_r b) at 1. apply view_mid. Qed.

Lemma loop_exact : forall ps a rest, rest <> [] ->
  substLoop (a ++ before ps rest) (length a) (ranges (length a) ps) = Some (after ps rest).
Proof.
  induction ps as [|[k g n] r IH]; intros a rest Hr.
  - cbn [ranges substLoop before after flat_map app]. unfold before. cbn [flat_map app]. now rewrite view_rest.
  - cbn [ranges substLoop kept gone new start numBytes replacement].
    destruct (length a + length k <? length a)%nat eqn:E; [apply Nat.ltb_lt in E; lia|].
    assert (Hl : (0 < length rest)%nat) by (destruct rest; [congruence|cbn; lia]).
    assert (He : a ++ before (Piece k g n :: r) rest = (a ++ k ++ g) ++ before r rest).
    { unfold before. cbn [flat_map kept gone]. now rewrite <- !app_assoc. }
    assert (Hn : (length a + length k + length g)%nat = length (a ++ k ++ g)) by (rewrite !app_length; lia).
    replace (length a + length k + length g <? length (a ++ before (Piece k g n :: r) rest))%nat with true.
    2: { symmetry. apply Nat.ltb_lt. rewrite He. unfold before. rewrite !app_length. lia. }
    rewrite He, Hn, IH by exact Hr. cbn [option_map]. f_equal.
    replace (length a + length k - length a)%nat with (length k) by lia.
    rewrite <- !app_assoc, view_mid. unfold after. cbn [flat_map kept new]. now rewrite <- !app_assoc.
Qed.

Lemma loop_only : forall substs a src out, substLoop (a ++ src) (length a) substs = Some out ->
  exists ps rest, src = before ps rest /\ substs = ranges (length a) ps /\ out = after ps rest /\ (substs <> [] -> rest <> []).
Proof.
  induction substs as [|[s n rep] r IH]; intros a src out H.
  - cbn [substLoop] in H. rewrite view_rest in H. injection H as <-. exists [], src. repeat split. congruence.
  - cbn [substLoop start numBytes replacement] in H.
    destruct (s <? length a)%nat eqn:E1; [discriminate|]. apply Nat.ltb_ge in E1.
    destruct (s + n <? length (a ++ src))%nat eqn:E2; [|discriminate]. apply Nat.ltb_lt in E2. rewrite app_length in E2.
    set (k := firstn (s - length a) src). set (g := firstn n (skipn (s - length a) src)). set (t := skipn n (skipn (s - length a) src)).
    assert (Hk : length k = (s - length a)%nat) by (unfold k; rewrite firstn_length; lia).
    assert (Hg : length g = n) by (unfold g; rewrite firstn_length, skipn_length; lia).
    assert (Hs : src = k ++ g ++ t) by (unfold k, g, t; now rewrite !firstn_skipn).
    assert (Ha : a ++ src = (a ++ k ++ g) ++ t) by (rewrite Hs, <- !app_assoc; reflexivity).
    assert (Hn : (s + n)%nat = length (a ++ k ++ g)) by (rewrite !app_length; lia).
    assert (Ht : t <> []). { intros E. rewrite Hs, E, !app_length in E2. cbn in E2. lia. }
    rewrite Hn, Ha in H. destruct (substLoop _ _ r) as [o|] eqn:Er; [|discriminate]. cbn [option_map] in H. injection H as <-.
    apply IH in Er. destruct Er as (ps & rest & -> & -> & -> & Hr). exists (Piece k g rep :: ps), rest.
    split; [rewrite Hs; unfold before; cbn [flat_map kept gone]; now rewrite <- !app_assoc|].
    split. { cbn [ranges kept gone new]. f_equal; [f_equal; lia|]. f_equal. rewrite !app_length. lia. }
    split.
    + rewrite <- Hk, <- !app_assoc, view_mid. unfold after. cbn [flat_map kept new]. now rewrite <- !app_assoc.
    + intros _. destruct ps; [|apply Hr; discriminate]. intros ->. apply Ht. reflexivity.
Qed.

Lemma loop_end : forall ps a, ps <> [] -> substLoop (a ++ before ps []) (length a) (ranges (length a) ps) = None.
Proof.
  intros ps a Hp. destruct (substLoop _ _ _) as [o|] eqn:E; [|reflexivity]. exfalso.
  revert a o E. induction ps as [|[k g n] r IH]; intros a o E; [congruence|].
  cbn [ranges substLoop kept gone new start numBytes replacement] in E.
  destruct (length a + length k <? length a)%nat; [discriminate|].
  destruct (length a + length k + length g <? _)%nat eqn:E2; [|discriminate]. apply Nat.ltb_lt in E2.
  assert (He : a ++ before (Piece k g n :: r) [] = (a ++ k ++ g) ++ before r []).
  { unfold before. cbn [flat_map kept gone]. now rewrite <- !app_assoc. }
  assert (Hn : (length a + length k + length g)%nat = length (a ++ k ++ g)) by (rewrite !app_length; lia).
  rewrite He, Hn in E. rewrite He, Hn in E2. destruct r as [|q r].
  - unfold before in E2. cbn [flat_map] in E2. rewrite !app_nil_r in E2. lia.
  - destruct (substLoop _ (length (a ++ k ++ g)) _) as [o'|] eqn:E3; [|discriminate]. eapply IH; [discriminate|exact E3].
Qed.

(** Lines. *)
Lemma nth_at a c b : nth (length a) (a ++ c :: b) 0 = c.
Proof. rewrite app_nth2, Nat.sub_diag by lia. reflexivity. Qed.
Lemma startOfLine_fresh a b : fresh a -> startOfLine (a ++ b) (length a) = length a.
Proof.
  intros [->|[c ->]]; [reflexivity|]. rewrite app_length, Nat.add_comm. cbn [Nat.add startOfLine length].
  rewrite <- app_assoc. cbn [app]. now rewrite nth_at, Z.eqb_refl.
Qed.
Lemma startOfLine_ok : forall i a b, oneLine i -> fresh a -> startOfLine (a ++ i ++ b) (length a + length i) = length a.
Proof.
  induction i as [|c i IH] using rev_ind; intros a b Hi Ha.
  - cbn [length app]. rewrite Nat.add_0_r. now apply startOfLine_fresh.
  - assert (Hc : c <> 10). { intros ->. apply Hi. apply in_or_app. right. now left. }
    rewrite app_length. cbn [length]. rewrite Nat.add_assoc, Nat.add_1_r. cbn [startOfLine].
    replace (nth (length a + length i) (a ++ (i ++ [c]) ++ b) 0) with c.
    2: { rewrite <- app_length, <- app_assoc, app_assoc. symmetry. apply nth_at. }
    apply Z.eqb_neq in Hc. rewrite Hc. rewrite <- app_assoc. apply IH; [|exact Ha].
    intros H. apply Hi. apply in_or_app. now left.
Qed.
Lemma lineLength_ok : forall s r, oneLine s -> lineLength (s ++ 10 :: r) = (length s + 1)%nat.
Proof.
  induction s as [|c s IH]; intros r H; [reflexivity|]. cbn [app lineLength length].
  destruct (Z.eqb_spec c 10) as [->|]; [destruct H; now left|]. rewrite IH; [lia|]. intros Hi. apply H. now right.
Qed.

Definition endsMarked (s : list Z) : bool := sv_endsWith (sv_trim isWhite false true s) (txt "//@@ply").
Lemma trim_left_white w s : Forall (fun c => isWhite c = true) w -> trim_left isWhite (w ++ s) = trim_left isWhite s.
Proof. induction 1 as [|c w Hc _ IH]; [reflexivity|]. cbn [app trim_left]. now rewrite Hc. Qed.
Lemma blanks_white w : blanks w -> Forall (fun c => isWhite c = true) w.
Proof. intros H. eapply Forall_impl; [|exact H]. intros c [->|[->| ->]]; reflexivity. Qed.
Lemma marked_yes a w : blanks w -> endsMarked (a ++ txt "//@@ply" ++ w ++ [10]) = true.
Proof.
  intros H. unfold endsMarked, sv_trim. rewrite !rev_app_distr. cbn [rev app].
  change (10 :: rev w ++ rev (txt "//@@ply") ++ rev a) with ((10 :: rev w) ++ rev (txt "//@@ply") ++ rev a).
  rewrite <- ?app_assoc. cbn [app]. change (10 :: rev w ++ rev (txt "//@@ply") ++ rev a) with ((10 :: rev w) ++ rev (txt "//@@ply") ++ rev a).
  rewrite trim_left_white. 2: { constructor; [reflexivity|]. apply blanks_white. now apply Forall_rev. }
  apply sv_endsWith_iff. exists a.
  assert (E : trim_left isWhite (rev (txt "//@@ply") ++ rev a) = rev (txt "//@@ply") ++ rev a) by reflexivity.
  rewrite E, rev_app_distr, !rev_involutive. reflexivity.
Qed.
Lemma white_blanks w : Forall (fun c => isWhite c = true) w -> oneLine w -> blanks w.
Proof.
  intros H Ho. unfold blanks. rewrite Forall_forall in *. intros c Hc. specialize (H c Hc). unfold isWhite in H.
  assert (c <> 10) by (intros ->; now apply Ho). 
  destruct (Z.eqb_spec c 32); [now left|]. destruct (Z.eqb_spec c 9); [now right; left|]. destruct (Z.eqb_spec c 13); [now right; right|].
  destruct (Z.eqb_spec c 10); [contradiction|discriminate].
Qed.
Lemma marked_no s : oneLine s -> (forall a w, s = a ++ txt "//@@ply" ++ w -> ~ blanks w) -> endsMarked (s ++ [10]) = false.
Proof.
  intros Ho Hn. destruct (endsMarked _) eqn:E; [|reflexivity]. exfalso. unfold endsMarked in E. apply sv_endsWith_iff in E.
  destruct E as [r Hr]. unfold sv_trim in Hr. rewrite rev_app_distr in Hr. cbn [rev app trim_left] in Hr.
  change (isWhite 10) with true in Hr. cbn iota in Hr.
  destruct (trim_right_spec isWhite s) as (b & Hb & Hw & _). rewrite Hr in Hb.
  assert (Hbo : oneLine b). { intros Hi. apply Ho. rewrite Hb. apply in_or_app. now right. }
  apply (Hn r b); [rewrite Hb, <- app_assoc; reflexivity|]. now apply white_blanks.
Qed.

Lemma include_subst a i s rest : fresh a -> oneLine (i ++ s) ->
  onGotInclude (a ++ i ++ s ++ 10 :: rest) (length a + length i) =
  if endsMarked (s ++ [10]) then [Subst (length a) (length i + length s + 1) []] else [].
Proof.
  intros Ha Ho. unfold onGotInclude.
  assert (Hi : oneLine i) by (intros H; apply Ho, in_or_app; now left).
  assert (Hs : oneLine s) by (intros H; apply Ho, in_or_app; now right).
  assert (E : skipn (length a + length i) (a ++ i ++ s ++ 10 :: rest) = s ++ 10 :: rest).
  { rewrite <- app_length, app_assoc, skipn_app, skipn_all, Nat.sub_diag. reflexivity. }
  rewrite E, lineLength_ok by exact Hs. unfold view. rewrite E.
  replace (firstn (length s + 1) (s ++ 10 :: rest)) with (s ++ [10]).
  2: { change (10 :: rest) with ([10] ++ rest). rewrite app_assoc. rewrite firstn_app, app_length. cbn [length]. rewrite Nat.sub_diag, firstn_O, app_nil_r.
       symmetry. rewrite <- (firstn_all (s ++ [10])) at 2. rewrite app_length. reflexivity. }
  fold (endsMarked (s ++ [10])). destruct (endsMarked _); [|reflexivity].
  rewrite startOfLine_ok by assumption. f_equal. f_equal. lia.
Qed.

(** The pieces that lines are. *)
Fixpoint pieces (k : list Z) (ls : list line) : list piece * list Z :=
  match ls with
  | [] => ([], k)
  | l :: r => if isGenerated l then let '(ps, t) := pieces [] r in (Piece k (text l ++ [10]) [] :: ps, t)
              else pieces (k ++ text l ++ [10]) r
  end.
Lemma pieces_before : forall ls k, before (fst (pieces k ls)) (snd (pieces k ls)) = k ++ file ls.
Proof.
  induction ls as [|l r IH]; intros k; [cbn; now rewrite app_nil_r|]. cbn [pieces]. destruct (isGenerated l).
  - specialize (IH []). destruct (pieces [] r) as [ps t]. cbn [fst snd] in *. unfold before in *. cbn [flat_map kept gone file].
    rewrite <- app_assoc, IH. cbn [app]. unfold file. cbn [flat_map]. now rewrite <- !app_assoc.
  - rewrite IH. unfold file. cbn [flat_map]. now rewrite <- !app_assoc.
Qed.
Lemma pieces_after : forall ls k, after (fst (pieces k ls)) (snd (pieces k ls)) = k ++ file (filter (fun l => negb (isGenerated l)) ls).
Proof.
  induction ls as [|l r IH]; intros k; [cbn; now rewrite app_nil_r|]. cbn [pieces filter]. destruct (isGenerated l); cbn [negb].
  - specialize (IH []). destruct (pieces [] r) as [ps t]. cbn [fst snd] in *. unfold after in *. cbn [flat_map kept new].
    rewrite app_nil_r, <- app_assoc, IH. reflexivity.
  - rewrite IH. unfold file. cbn [flat_map]. now rewrite <- !app_assoc.
Qed.
Lemma fresh_line a l : fresh (a ++ text l ++ [10]).
Proof. right. exists (a ++ text l). now rewrite app_assoc. Qed.
Lemma pieces_ranges : forall ls a k tail, Forall line_ok ls -> fresh (a ++ k) ->
  flat_map (substsOf (a ++ k ++ file ls ++ tail)) (includes (length (a ++ k)) ls) = ranges (length a) (fst (pieces k ls)).
Proof.
  induction ls as [|l r IH]; intros a k tail Hl Hf; [reflexivity|]. inversion Hl as [|? ? Hok Hr]; subst.
  cbn [includes]. rewrite flat_map_app.
  assert (Hfile : a ++ k ++ file (l :: r) ++ tail = (a ++ k) ++ text l ++ 10 :: (file r ++ tail)).
  { unfold file. cbn [flat_map]. rewrite <- !app_assoc. reflexivity. }
  assert (Hlen : (length (a ++ k) + length (text l) + 1)%nat = length (a ++ k ++ text l ++ [10])).
  { rewrite !app_length. cbn [length]. lia. }
  assert (Hno : isGenerated l = false -> flat_map (substsOf (a ++ k ++ file (l :: r) ++ tail))
     (match l with Plain _ => [] | Own i _ => [Include (length (a ++ k) + length i)] | Generated i _ _ => [Include (length (a ++ k) + length i)] end) = []).
  { intros Hg. destruct l as [s|i s|i s w]; [reflexivity| |discriminate]. cbn [flat_map substsOf]. rewrite app_nil_r, Hfile. cbn [text].
    rewrite <- app_assoc with (l := i). rewrite include_subst; [|exact Hf|exact (proj1 Hok)].
    destruct Hok as [Ho Hm]. rewrite marked_no; [reflexivity| |exact Hm]. intros Hi. apply Ho. cbn [text]. apply in_or_app. now right. }
  cbn [pieces]. destruct (isGenerated l) eqn:Eg.
  - destruct l as [s|i s|i s w]; try discriminate. cbn [flat_map substsOf]. rewrite app_nil_r.
    replace (onGotInclude _ _) with [Subst (length (a ++ k)) (length (text (Generated i s w) ++ [10])) []].
    2: { rewrite Hfile. generalize (eq_refl (length (text (Generated i s w) ++ [10]))).
         generalize (length (text (Generated i s w) ++ [10])) at 1 3. intros q Hq. cbn [text]. rewrite <- app_assoc with (l := i). destruct Hok as [Ho Hm].
         rewrite include_subst; [|exact Hf|exact Ho]. replace (([35] ++ s ++ txt "//@@ply" ++ w) ++ [10]) with ((35 :: s) ++ txt "//@@ply" ++ w ++ [10]).
         2: { cbn [app]. rewrite <- !app_assoc. reflexivity. }
         rewrite marked_yes by exact Hm. f_equal. f_equal. rewrite Hq. cbn [text]. rewrite !app_length. cbn [length]. lia. }
    specialize (IH ((a ++ k) ++ text (Generated i s w) ++ [10]) [] tail Hr).
    rewrite app_nil_r in IH. specialize (IH (fresh_line _ _)).
    destruct (pieces [] r) as [ps t]. cbn [fst ranges kept gone new app] in *. f_equal.
    { f_equal. now rewrite app_length. }
    rewrite Hlen. replace (a ++ k ++ file (Generated i s w :: r) ++ tail) with (((a ++ k) ++ text (Generated i s w) ++ [10]) ++ file r ++ tail).
    2: { unfold file. cbn [flat_map]. now rewrite <- !app_assoc. }
    rewrite <- !app_assoc in IH. rewrite <- !app_assoc. etransitivity; [exact IH|]. f_equal. rewrite !app_length. lia.
  - rewrite Hno by reflexivity. cbn [app]. rewrite Hlen.
    replace (a ++ k ++ file (l :: r) ++ tail) with (a ++ (k ++ text l ++ [10]) ++ file r ++ tail).
    2: { unfold file. cbn [flat_map]. now rewrite <- !app_assoc. }
    apply IH; [exact Hr|]. rewrite app_assoc. apply fresh_line.
Qed.
Lemma before_app ps t tail : before ps t ++ tail = before ps (t ++ tail).
Proof. unfold before. now rewrite app_assoc. Qed.
Lemma after_app ps t tail : after ps t ++ tail = after ps (t ++ tail).
Proof. unfold after. now rewrite app_assoc. Qed.
Lemma lines_ok ls tail : Forall line_ok ls -> tail <> [] ->
  codegen (file ls ++ tail) (includes 0 ls) = Some (file (filter (fun l => negb (isGenerated l)) ls) ++ tail).
Proof.
  intros Hl Ht. unfold codegen, performSubsts. pose proof (pieces_ranges ls [] [] tail Hl (or_introl eq_refl)) as H. cbn [app length] in H. rewrite H.
  pose proof (pieces_before ls []) as Hb. pose proof (pieces_after ls []) as Ha. cbn [app] in Hb, Ha.
  rewrite <- Hb, <- Ha, before_app, after_app. apply (loop_exact _ [] _). destruct tail; [congruence|]. destruct (snd _); discriminate.
Qed.

(** Insertion. *)
Lemma insertLoop_white : forall w a b rep, blanks w -> insertLoop (a ++ w ++ b) (length a + length w) rep = insertLoop (a ++ w ++ b) (length a) rep.
Proof.
  induction w as [|c w IH] using rev_ind; intros a b rep Hw; [cbn [length]; now rewrite Nat.add_0_r|].
  apply Forall_app in Hw. destruct Hw as [Hw Hc]. inversion Hc as [|? ? Hc' _]; subst.
  rewrite app_length. cbn [length]. rewrite Nat.add_assoc, Nat.add_1_r. cbn [insertLoop].
  replace (nth (length a + length w) (a ++ (w ++ [c]) ++ b) 0) with c.
  2: { rewrite <- app_length, <- app_assoc, app_assoc. symmetry. apply nth_at. }
  assert (E1 : (c =? 10) = false) by (destruct Hc' as [->|[->| ->]]; reflexivity).
  assert (E2 : isWhite c = true) by (destruct Hc' as [->|[->| ->]]; reflexivity).
  rewrite E1, E2. cbn [negb]. rewrite <- app_assoc. now apply IH.
Qed.
Lemma insert_own a w b rep : fresh a -> blanks w -> insertDirectiveSubst (a ++ w ++ b) (length a + length w) rep = Subst (length a) 0 rep.
Proof.
  intros Ha Hw. unfold insertDirectiveSubst. rewrite insertLoop_white by exact Hw. destruct Ha as [->|[c ->]]; [reflexivity|].
  rewrite app_length, Nat.add_comm. cbn [Nat.add insertLoop length]. rewrite <- app_assoc. cbn [app]. now rewrite nth_at, Z.eqb_refl.
Qed.
Lemma indentation_text : forall m a i b f, oneLine m -> fresh a -> blanks i ->
  (m = [] \/ exists c m', m = c :: m' /\ isWhite c = false) ->
  indentation (a ++ i ++ m ++ b) (length a + length i + length m) f = (length a, match m with [] => f | _ => length a + length i end)%nat.
Proof.
  induction m as [|c m IH] using rev_ind; intros a i b f Hm Ha Hi Hc.
  - cbn [length app]. rewrite Nat.add_0_r. clear Hm Hc. revert b. induction i as [|c i IH] using rev_ind; intros b.
    + cbn [length app]. rewrite Nat.add_0_r. destruct Ha as [->|[d ->]]; [reflexivity|].
      rewrite app_length, Nat.add_comm. cbn [Nat.add indentation length]. rewrite <- app_assoc. cbn [app]. now rewrite nth_at, Z.eqb_refl.
    + apply Forall_app in Hi. destruct Hi as [Hi Hc]. inversion Hc as [|? ? Hc' _]; subst.
      rewrite app_length. cbn [length]. rewrite Nat.add_assoc, Nat.add_1_r. cbn [indentation].
      replace (nth (length a + length i) (a ++ (i ++ [c]) ++ b) 0) with c.
      2: { rewrite <- app_length, <- app_assoc, app_assoc. symmetry. apply nth_at. }
      assert (E1 : (c =? 10) = false) by (destruct Hc' as [->|[->| ->]]; reflexivity).
      assert (E2 : isWhite c = true) by (destruct Hc' as [->|[->| ->]]; reflexivity).
      rewrite E1, E2, <- app_assoc. now apply IH.
  - rewrite app_length. cbn [length]. rewrite Nat.add_assoc, Nat.add_1_r. cbn [indentation].
    replace (nth (length a + length i + length m) (a ++ i ++ (m ++ [c]) ++ b) 0) with c.
    2: { replace (a ++ i ++ (m ++ [c]) ++ b) with ((a ++ i ++ m) ++ c :: b) by (rewrite <- !app_assoc; reflexivity).
         replace (length a + length i + length m)%nat with (length (a ++ i ++ m)) by (rewrite !app_length; lia). symmetry. apply nth_at. }
    assert (E1 : (c =? 10) = false). { apply Z.eqb_neq. intros ->. apply Hm, in_or_app. right. now left. }
    rewrite E1, <- (app_assoc m). rewrite IH; [|intros H; apply Hm, in_or_app; now left|exact Ha|exact Hi|].
    + destruct m as [|d m]; [|reflexivity]. destruct Hc as [Hc|(c' & m' & Hc & Hw)]; [discriminate|]. injection Hc as -> _. rewrite Hw. cbn [app length].
      now rewrite Nat.add_0_r.
    + destruct m as [|d m]; [now left|]. right. destruct Hc as [Hc|(c' & m' & Hc & Hw)]; [discriminate|]. injection Hc as -> _. now exists c', m.
Qed.
Lemma insert_inline a i m e w b rep : fresh a -> blanks i -> blanks w -> oneLine (m ++ [e]) -> isWhite e = false ->
  (exists c r, m ++ [e] = c :: r /\ isWhite c = false) ->
  insertDirectiveSubst (a ++ i ++ (m ++ [e]) ++ w ++ b) (length (a ++ i ++ m ++ [e]) + length w) rep =
  Subst (length (a ++ i ++ m ++ [e])) 0 ([10] ++ rep ++ i).
Proof.
  intros Ha Hi Hw Ho He Hc. unfold insertDirectiveSubst.
  replace (a ++ i ++ (m ++ [e]) ++ w ++ b) with ((a ++ i ++ m ++ [e]) ++ w ++ b) by now rewrite <- !app_assoc.
  rewrite insertLoop_white by exact Hw.
  replace (length (a ++ i ++ m ++ [e])) with (S (length a + length i + length m)) at 1 by (rewrite !app_length; cbn [length]; lia).
  cbn [insertLoop].
  replace (nth (length a + length i + length m) _ 0) with e.
  2: { replace ((a ++ i ++ m ++ [e]) ++ w ++ b) with ((a ++ i ++ m) ++ e :: w ++ b) by (rewrite <- !app_assoc; reflexivity).
       replace (length a + length i + length m)%nat with (length (a ++ i ++ m)) by (rewrite !app_length; lia). symmetry. apply nth_at. }
  assert (E1 : (e =? 10) = false). { apply Z.eqb_neq. intros ->. apply Ho, in_or_app. right. now left. }
  rewrite E1, He. cbn [negb].
  replace ((a ++ i ++ m ++ [e]) ++ w ++ b) with (a ++ i ++ m ++ ([e] ++ w ++ b)) by now rewrite <- !app_assoc.
  rewrite indentation_text; [|intros H; apply Ho, in_or_app; now left|exact Ha|exact Hi|].
  - replace (length (a ++ i ++ m ++ [e])) with (S (length a + length i + length m)) by (rewrite !app_length; cbn [length]; lia).
    cbn [app]. f_equal. f_equal. f_equal.
    replace ((match m with [] => length a + length i + length m | _ => length a + length i end) - length a)%nat with (length i).
    + apply view_mid.
    + destruct m; cbn [length]; lia.
  - destruct m as [|d m]; [now left|]. right. destruct Hc as (c & r & Hc & Hcw). injection Hc as -> _. now exists c, m.
Qed.
