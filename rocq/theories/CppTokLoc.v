(* The tokenizer: reading ends, and locations lead to the text. *)
From Coq Require Import Lia ZifyBool ZifyNat.
From Coq Require Import String.
From Verif Require Import Txt CppTokModel CppTokSpec CppTokProofs.
Local Open Scope string_scope.
Local Open Scope list_scope.
Local Open Scope Z_scope.
Local Notation length := List.length.

(** ** Macro arguments *)
Lemma scanMask_suf s m inv : suf (scanUsingMask s m inv) s.
Proof. induction s as [|c s IH]; cbn; [auto with suf|]. destruct (Bool.eqb _ _); auto with suf. Qed.
Lemma macroLoop_suf : forall f e st loc lv acc s a r x, macroLoop f e st loc lv acc s = (a, r, x) -> suf r s.
Proof.
  induction f as [|f IH]; intros e st loc lv acc s a r x; cbn [macroLoop]; [intros E; injection E as _ <- _; auto with suf|].
  destruct s as [|c s]; [intros E; injection E as _ <- _; auto with suf|].
  destruct (c =? 47).
  { destruct s as [|d s]; [intros E; injection E as _ <- _; auto with suf|].
    destruct (d =? 47); [intros E; apply IH in E; eapply suf_trans; [exact E|]; apply suf_cons, suf_cons, skipLine_suf|].
    destruct (d =? 42); [|intros E; apply IH in E; auto with suf].
    destruct (skipComment s) as [found rest] eqn:EC. apply skipComment_suf in EC.
    destruct found; intros E; [apply IH in E; eapply suf_trans; [exact E|]; auto with suf|injection E as _ <- _; auto with suf]. }
  destruct (c =? 40); [intros E; apply IH in E; auto with suf|].
  destruct (c =? 41); [destruct (_ <=? 0); [intros E; injection E as _ <- _; auto with suf|intros E; apply IH in E; auto with suf]|].
  destruct (_ && _); intros E; apply IH in E; auto with suf.
Qed.
Lemma readMacroArguments_suf e s a r x : readMacroArguments e s = (a, r, x) -> suf r s.
Proof.
  unfold readMacroArguments. pose proof (scanMask_suf s WhitespaceMask false) as W.
  destruct (scanUsingMask s WhitespaceMask false) as [|c s1]; cbv zeta; [intros E; injection E as _ <- _; exact W|].
  destruct (c =? 40); [intros E; apply macroLoop_suf in E; eapply suf_trans; [exact E|eapply suf_trans; [|exact W]; auto with suf]|].
  intros E; injection E as _ <- _; exact W.
Qed.
Lemma findMacro_spec n ms m : findMacro n ms = Some m -> In m ms /\ n = mName m.
Proof.
  induction ms as [|x ms IH]; cbn; [discriminate|]. unfold bytesEqb. destruct (list_eq_dec Z.eq_dec n (mName x)) as [E|E].
  - intros X; injection X as <-. split; [now left|exact E].
  - intros X. apply IH in X as [H1 H2]. split; [now right|exact H2].
Qed.

(** What one call of the tokenizer does, one rule for each way through the loop. *)
Inductive call (ang : bool) : pp -> result -> Prop :=
| c_end p last : ppStack p = [] -> call ang p (Got (mkToken last EndOfFile []) p)
| c_popLast p it x : ppStack p = [it] -> itRest it = [] ->
    call ang (mkPP [] (ppEnd p) (ppBol p) (ppMacros p) (ppChains p) (ppMap p) (ppErrors p) (ppArgs p)) x ->
    call ang p x
| c_pop p it up below x : ppStack p = it :: up :: below -> itRest it = [] ->
    call ang (mkPP (up :: below) (ppEnd p + zlen (itRest up)) (ppBol p) (ppMacros p) (ppChains p)
                   (ppMap p ++ [mkLoc (ppEnd p) (itChain up) (zlen (itDone up))]) (ppErrors p) (ppArgs p)) x ->
    call ang p x
| c_skip p it below c r rest b e u x : ppStack p = it :: below -> itRest it = c :: r ->
    c :: r = u ++ rest -> u <> [] ->
    call ang (mkPP (mkItem (itChain it) (itDone it ++ u) rest :: below) (ppEnd p) b (ppMacros p) (ppChains p) (ppMap p)
                   (addErrs (ppEnd p) e (ppErrors p)) (ppArgs p)) x ->
    call ang p x
| c_crash p it below r : ppStack p = it :: below -> itRest it = 82 :: 34 :: r -> call ang p Fails
| c_tok p it below rest b u t errs args : ppStack p = it :: below -> itRest it = u ++ rest -> u <> [] ->
    t <> EndOfFile ->
    call ang p (Got (mkToken (linearLoc (ppEnd p) (itRest it)) t u)
                    (mkPP (mkItem (itChain it) (itDone it ++ u) rest :: below) (ppEnd p) b (ppMacros p) (ppChains p)
                          (ppMap p) errs args))
| c_macro p it below rest b u v m errs args : ppStack p = it :: below -> itRest it = u ++ v ++ rest -> u <> [] ->
    In m (ppMacros p) -> u = mName m ->
    let loc := linearLoc (ppEnd p) (itRest it) in
    call ang p (Got (mkToken loc Macro u)
                    (mkPP (mkItem (length (ppChains p)) [] (mText m) ::
                           mkItem (itChain it) (itDone it ++ u ++ v) rest :: below) (loc + zlen (mText m)) b (ppMacros p)
                          (ppChains p ++ [mkChain (mText m) true (itChain it)])
                          (ppMap p ++ [mkLoc loc (length (ppChains p)) 0]) errs args)).

Lemma left_cons it l e b m c mp er a : left (mkPP (it :: l) e b m c mp er a) =
  (S (length (itRest it)) + left (mkPP l e b m c mp er a))%nat.
Proof. reflexivity. Qed.
Lemma left_stack p q : ppStack p = ppStack q -> left p = left q.
Proof. unfold left. now intros ->. Qed.

Lemma readTokenF_call : forall f ang last p, (left p < f)%nat -> call ang p (readTokenF f ang last p).
Proof.
  induction f as [|f IH]; intros ang last p Hf; [lia|]. cbn [readTokenF].
  destruct (ppStack p) as [|it below] eqn:HS; [now apply c_end|].
  assert (LP : left p = (S (length (itRest it)) + fold_right (fun it n => (S (length (itRest it)) + n)%nat) 0%nat below)%nat)
    by (unfold left; now rewrite HS).
  destruct (itRest it) as [|c r] eqn:HR.
  { destruct below as [|up below].
    - eapply c_popLast; [exact HS|exact HR|]. apply IH. unfold left. cbn [ppStack fold_right]. cbn in LP. lia.
    - eapply c_pop; [exact HS|exact HR|]. apply IH. unfold left. cbn [ppStack]. cbn [length] in LP. lia. }
  cbv zeta. pose proof (lexRound_ok (ppBol p) ang c r) as R. pose proof (lexRound_type (ppBol p) ang c r) as TY.
  destruct (lexRound (ppBol p) ang c r) as [t rest b e|rest b e|].
  - destruct R as (u & Eu & Nu). specialize (TY _ _ _ _ eq_refl). rewrite Eu, between_app.
    assert (AD : forall u' rest', u ++ rest = u' ++ rest' -> advance it rest' = mkItem (itChain it) (itDone it ++ u') rest').
    { intros u' rest' E. unfold advance. rewrite HR, Eu, E, between_app. reflexivity. }
    rewrite (AD u rest eq_refl).
    assert (PL : forall errs args, call ang p (Got (mkToken (linearLoc (ppEnd p) (u ++ rest)) t u)
        (mkPP (mkItem (itChain it) (itDone it ++ u) rest :: below) (ppEnd p) b (ppMacros p) (ppChains p) (ppMap p) errs args))).
    { intros errs args. rewrite <- Eu, <- HR. rewrite <- HR in Eu. now apply c_tok. }
    assert (EX : forall m v rest' errs args, In m (ppMacros p) -> u = mName m -> rest = v ++ rest' ->
      call ang p (Got (mkToken (linearLoc (ppEnd p) (u ++ rest)) Macro u)
        (mkPP (mkItem (length (ppChains p)) [] (mText m) :: advance it rest' :: below)
          (linearLoc (ppEnd p) (u ++ rest) + zlen (mText m)) b (ppMacros p)
          (ppChains p ++ [mkChain (mText m) true (itChain it)])
          (ppMap p ++ [mkLoc (linearLoc (ppEnd p) (u ++ rest)) (length (ppChains p)) 0]) errs args))).
    { intros m v rest' errs args Hm Hn Hv. rewrite (AD (u ++ v) rest') by (rewrite Hv; now rewrite app_assoc).
      rewrite <- Eu, <- HR. rewrite <- HR in Eu. rewrite Hv in Eu.
      exact (c_macro ang p it below rest' b u v m errs args HS Eu Nu Hm Hn). }
    destruct t; try apply PL.
    destruct (findMacro u (ppMacros p)) as [m|] eqn:FM; [|apply PL].
    apply findMacro_spec in FM as [Hm Hn].
    destruct (mArgs m); [|rewrite <- (AD u rest eq_refl); exact (EX m [] rest _ _ Hm Hn eq_refl)].
    destruct (readMacroArguments (ppEnd p) rest) as [[args rest'] e'] eqn:RA. apply readMacroArguments_suf in RA as [v Hv].
    destruct args; [apply PL|]. exact (EX m v rest' _ _ Hm Hn Hv).
  - destruct R as (u & Eu & Nu & _).
    replace (advance it rest) with (mkItem (itChain it) (itDone it ++ u) rest)
      by (unfold advance; rewrite HR, Eu, between_app; reflexivity).
    eapply c_skip; [exact HS|exact HR|exact Eu|exact Nu|]. apply IH. rewrite left_cons. cbn [itRest].
    unfold left. cbn [ppStack]. assert (length (c :: r) = length (u ++ rest)) by now rewrite Eu.
    rewrite app_length in H. destruct u; [congruence|]. cbn [length] in *. lia.
  - destruct R as (r' & E). eapply c_crash; [exact HS|]. now rewrite HR, E.
Qed.
Lemma readToken_call ang p : call ang p (readToken ang p).
Proof. apply readTokenF_call. lia. Qed.

(** ** Reading ends *)
Definition flat (ms : list macro) : Prop :=
  forall m m', In m ms -> In m' ms -> mName m' <> [] /\ ~ occurs (mName m') (mText m).
Definition bound (ms : list macro) : nat := fold_right (fun m n => Nat.max (S (S (length (mText m)))) n) 2%nat ms.
Lemma bound_ge ms m : In m ms -> (S (S (length (mText m))) <= bound ms)%nat.
Proof. induction ms as [|x ms IH]; [contradiction|]. cbn [bound fold_right]. intros [->|H]; [lia|]. apply IH in H. unfold bound in *. lia. Qed.
Lemma bound_ge2 ms : (2 <= bound ms)%nat.
Proof. induction ms as [|x ms IH]; cbn [bound fold_right]; [lia|]. unfold bound in *. lia. Qed.
Definition rawFree (s : list Z) : Prop := ~ occurs [82; 34] s.
Definition endInv (p : pp) : Prop :=
  flat (ppMacros p) /\ (forall m, In m (ppMacros p) -> rawFree (mText m)) /\
  match ppStack p with
  | [] => True
  | [it] => rawFree (itRest it)
  | [ex; it] => rawFree (itRest it) /\ exists m, In m (ppMacros p) /\ suf (itRest ex) (mText m)
  | _ => False
  end.
Definition mu (p : pp) : nat :=
  match ppStack p with
  | [it] => bound (ppMacros p) * S (length (itRest it))
  | [ex; it] => S (length (itRest ex)) + bound (ppMacros p) * S (length (itRest it))
  | _ => 0
  end.
Lemma rawFree_suf r s : suf r s -> rawFree s -> rawFree r.
Proof. intros [u ->] H (a & b & ->). apply H. exists (u ++ a), b. now rewrite <- app_assoc. Qed.
Lemma call_ends ang p x : call ang p x -> endInv p ->
  exists t q, x = Got t q /\ endInv q /\ (tokType t = EndOfFile \/ (mu q < mu p)%nat).
Proof.
  intros H. induction H as
    [p last HS|p it x HS HR _ IH|p it up below x HS HR _ IH|p it below c r rest b e u x HS HR Eu Nu _ IH
    |p it below r HS HR|p it below rest b u t errs args HS HR Nu NE
    |p it below rest b u v m errs args HS HR Nu Hm Hn loc]; intros (F & RF & I).
  - eexists _, _. split; [reflexivity|]. split; [exact (conj F (conj RF I))|left; reflexivity].
  - destruct IH as (t & q & E & Iq & M).
    { split; [exact F|]. split; [exact RF|]. exact Logic.I. }
    exists t, q. split; [exact E|]. split; [exact Iq|]. destruct M as [M|M]; [now left|]. cbn in M. lia.
  - unfold endInv in IH. cbn [ppMacros ppStack] in IH. rewrite HS in I. destruct below as [|? ?]; [|contradiction].
    destruct I as [I (m & Hm & _)].
    destruct IH as (t & q & E & Iq & M). { split; [exact F|]. split; [exact RF|exact I]. }
    exists t, q. split; [exact E|]. split; [exact Iq|]. destruct M as [M|M]; [now left|]. right.
    unfold mu at 2. rewrite HS. unfold mu at 2 in M. cbn [ppStack ppMacros] in M. lia.
  - assert (SU : suf rest (itRest it)) by (exists u; rewrite HR; exact Eu).
    assert (LU : (length rest < length (itRest it))%nat)
      by (rewrite HR, Eu, app_length; destruct u; [congruence|cbn; lia]).
    rewrite HS in I. unfold endInv in IH. cbn [ppMacros ppStack itRest] in IH.
    destruct IH as (t & q & E & Iq & M).
    { split; [exact F|]. split; [exact RF|]. destruct below as [|x1 [|? ?]]; [|destruct I as [I (m & Hm & Sm)]|contradiction].
      - exact (rawFree_suf _ _ SU I).
      - split; [exact I|]. exists m. split; [exact Hm|exact (suf_trans _ _ _ SU Sm)]. }
    exists t, q. split; [exact E|]. split; [exact Iq|]. destruct M as [M|M]; [now left|]. right.
    unfold mu at 2. rewrite HS. unfold mu at 2 in M. cbn [ppStack ppMacros itRest] in M. pose proof (bound_ge2 (ppMacros p)) as B2.
    destruct below as [|x1 [|? ?]]; [nia|lia|contradiction].
  - exfalso. rewrite HS in I. destruct below as [|x1 [|? ?]].
    + apply I. exists [], r. exact HR.
    + destruct I as [_ (m & Hm & w & Hw)]. apply (RF m Hm). exists w, r. rewrite Hw, HR. reflexivity.
    + contradiction.
  - assert (SU : suf rest (itRest it)) by (exists u; exact HR).
    assert (LU : (length rest < length (itRest it))%nat)
      by (rewrite HR, app_length; destruct u; [congruence|cbn; lia]).
    rewrite HS in I. eexists _, _. split; [reflexivity|]. split.
    + split; [exact F|]. split; [exact RF|]. cbn [ppStack ppMacros itRest].
      destruct below as [|x1 [|? ?]]; [|destruct I as [I (m & Hm & Sm)]|contradiction].
      * exact (rawFree_suf _ _ SU I).
      * split; [exact I|]. exists m. split; [exact Hm|exact (suf_trans _ _ _ SU Sm)].
    + right. unfold mu. rewrite HS. cbn [ppStack ppMacros itRest]. pose proof (bound_ge2 (ppMacros p)) as B2.
      destruct below as [|x1 [|? ?]]; [nia|lia|contradiction].
  - rewrite HS in I. destruct below as [|x1 [|? ?]]; [| |contradiction].
    + assert (SU : suf rest (itRest it)) by (exists (u ++ v); rewrite HR; now rewrite app_assoc).
      assert (LU : (length rest < length (itRest it))%nat)
        by (rewrite HR, !app_length; destruct u; [congruence|cbn; lia]).
      eexists _, _. split; [reflexivity|]. split.
      * split; [exact F|]. split; [exact RF|]. cbn [ppStack ppMacros itRest]. split; [exact (rawFree_suf _ _ SU I)|].
        exists m. split; [exact Hm|apply suf_refl].
      * right. unfold mu. rewrite HS. cbn [ppStack ppMacros itRest]. pose proof (bound_ge _ _ Hm). nia.
    + exfalso. destruct I as [_ (m' & Hm' & w & Hw)]. apply (proj2 (F m' m Hm' Hm)).
      exists w, (v ++ rest). rewrite Hw, HR, Hn. reflexivity.
Qed.
Lemma readAll_ends : forall n p ang, (mu p < n)%nat -> endInv p -> exists ts q, readAll n ang p = Some (ts, q).
Proof.
  induction n as [|n IH]; intros p ang Hn I; [lia|]. cbn [readAll].
  destruct (call_ends _ _ _ (readToken_call (hd false ang) p) I) as (t & q & -> & Iq & M).
  assert (D : tokType t = EndOfFile \/ (tokType t <> EndOfFile /\ (mu q < mu p)%nat)).
  { destruct M as [M|M]; [now left|]. destruct (tokType t); try (right; split; [discriminate|exact M]). now left. }
  destruct D as [->|[D M']]; [now eexists _, _|].
  destruct (IH q (tl ang) ltac:(lia) Iq) as (ts & q' & ->).
  destruct (tokType t); try (now eexists _, _); congruence.
Qed.
Theorem reading_ends ms file ang : flat ms -> (forall m, In m ms -> rawFree (mText m)) -> rawFree file ->
  exists n ts q, readAll n ang (start ms file) = Some (ts, q).
Proof.
  intros F R RF. exists (S (mu (start ms file))). apply readAll_ends; [lia|]. split; [exact F|]. split; [exact R|]. exact RF.
Qed.

(** ** Locations *)
Definition cur (p : pp) : Z :=
  match ppStack p with it :: _ => ppEnd p - zlen (itRest it) | [] => ppEnd p end.
Definition itemOk (p : pp) (it : item) : Prop :=
  exists ch, nth_error (ppChains p) (itChain it) = Some ch /\ chContents ch = itDone it ++ itRest it.
Definition locInv (p : pp) : Prop :=
  Forall (itemOk p) (ppStack p) /\
  Forall (fun i => locAt i <= cur p) (ppMap p) /\
  match ppStack p with
  | [] => True
  | it :: _ => exists m li, ppMap p = m ++ [li] /\ Forall (fun i => locAt i <= locAt li) m /\
                 locChain li = itChain it /\ locOffset li + (cur p - locAt li) = zlen (itDone it)
  end.
Definition located (p : pp) (t : token) : Prop :=
  exists m1 i m2 ch, ppMap p = m1 ++ i :: m2 /\ locAt i <= tokLoc t /\ Forall (fun j => locAt j <= locAt i) m1 /\
    Forall (fun j => tokLoc t < locAt j) m2 /\ nth_error (ppChains p) (locChain i) = Some ch /\
    standsAt (chContents ch) (locOffset i + (tokLoc t - locAt i)) (tokText t).
Definition fileToken (t : token) : Prop := tokType t <> Macro /\ tokType t <> EndOfFile.
Definition extends (p q : pp) : Prop :=
  (exists mc, ppChains q = ppChains p ++ mc) /\
  (exists mm, ppMap q = ppMap p ++ mm /\ Forall (fun i => cur p <= locAt i) mm) /\ cur p <= cur q.

Lemma extends_trans p q r : extends p q -> extends q r -> extends p r.
Proof.
  intros ((c1 & H1) & (m1 & H2 & H3) & H4) ((c2 & H5) & (m2 & H6 & H7) & H8). split; [|split; [|lia]].
  - exists (c1 ++ c2). rewrite H5, H1. now rewrite app_assoc.
  - exists (m1 ++ m2). split; [rewrite H6, H2; now rewrite app_assoc|]. apply Forall_app. split; [exact H3|].
    eapply Forall_impl; [|exact H7]. cbn. intros; lia.
Qed.
Lemma located_extends p q t : located p t -> tokLoc t < cur p -> extends p q -> located q t.
Proof.
  intros (m1 & i & m2 & ch & E & Li & F1 & F2 & N & St) Hc ((cs & HC) & (mm & HM & FM) & _).
  exists m1, i, (m2 ++ mm), ch. repeat split; try assumption.
  - rewrite HM, E, <- app_assoc. reflexivity.
  - apply Forall_app. split; [exact F2|]. eapply Forall_impl; [|exact FM]. cbn. intros; lia.
  - rewrite HC. rewrite nth_error_app1; [exact N|]. apply nth_error_Some. congruence.
Qed.
Lemma itemOk_chains p q it : (exists mc, ppChains q = ppChains p ++ mc) -> itemOk p it -> itemOk q it.
Proof.
  intros (mc & E) (ch & N & C). exists ch. split; [|exact C]. rewrite E, nth_error_app1; [exact N|].
  apply nth_error_Some. congruence.
Qed.
Lemma zlen_nonneg (s : list Z) : 0 <= zlen s. Proof. unfold zlen. lia. Qed.
Lemma zlen_pos (s : list Z) : s <> [] -> 0 < zlen s.
Proof. unfold zlen. destruct s; [congruence|]. cbn. lia. Qed.

Lemma call_loc ang p x : call ang p x -> locInv p -> forall t q, x = Got t q ->
  locInv q /\ extends p q /\ (fileToken t -> located q t /\ tokLoc t < cur q).
Proof.
  intros H. induction H as
    [p last HS|p it x HS HR _ IH|p it up below x HS HR _ IH|p it below c r rest b e u x HS HR Eu Nu _ IH
    |p it below r HS HR|p it below rest b u t errs args HS HR Nu NE
    |p it below rest b u v m errs args HS HR Nu Hm Hn loc]; intros (IO & MB & LI) t' q' E.
  - injection E as <- <-. split; [exact (conj IO (conj MB LI))|]. split.
    + split; [exists []; now rewrite app_nil_r|]. split; [exists []; split; [now rewrite app_nil_r|constructor]|lia].
    + intros [_ X]. cbn in X. congruence.
  - unfold locInv, cur in IH. cbn [ppStack ppMap ppEnd] in IH.
    assert (C : cur p = ppEnd p) by (unfold cur; rewrite HS, HR; cbn; lia). rewrite C in *.
    destruct (IH (conj (Forall_nil _) (conj MB Logic.I)) _ _ E) as (H1 & H2 & H3). split; [exact H1|]. split; [|exact H3].
    destruct H2 as (HC & (mm & HM & FM) & HL). split; [exact HC|]. rewrite C. unfold cur in FM, HL at 1. cbn [ppStack ppEnd] in FM, HL.
    split; [exists mm; split; [exact HM|exact FM]|exact HL].
  - assert (C : cur p = ppEnd p) by (unfold cur; rewrite HS, HR; cbn; lia). rewrite C in *.
    set (p1 := mkPP (up :: below) _ _ _ _ _ _ _) in *.
    assert (C1 : cur p1 = ppEnd p) by (unfold cur, p1; cbn [ppStack ppEnd]; lia).
    assert (I1 : locInv p1).
    { split; [|split].
      - rewrite HS in IO. inversion IO as [|? ? _ IO']; subst. exact IO'.
      - rewrite C1. unfold p1. cbn [ppMap]. apply Forall_app. split; [exact MB|]. constructor; [cbn; lia|constructor].
      - unfold p1. cbn [ppStack ppMap]. exists (ppMap p), (mkLoc (ppEnd p) (itChain up) (zlen (itDone up))).
        fold p1. rewrite C1. cbn [locAt locChain locOffset]. repeat split; [exact MB|lia]. }
    destruct (IH I1 _ _ E) as (H1 & H2 & H3). split; [exact H1|]. split; [|exact H3].
    eapply extends_trans; [|exact H2]. split; [exists []; unfold p1; cbn; now rewrite app_nil_r|]. rewrite C1, C.
    split; [|lia]. eexists. split; [unfold p1; cbn [ppMap]; reflexivity|]. constructor; [cbn; lia|constructor].
  - set (p1 := mkPP (mkItem (itChain it) (itDone it ++ u) rest :: below) _ _ _ _ _ _ _) in *.
    assert (C1 : cur p1 = cur p + zlen u).
    { unfold cur, p1. rewrite HS. cbn [ppStack ppEnd itRest]. rewrite HR, Eu, zlen_app'. lia. }
    pose proof (zlen_nonneg u).
    assert (I1 : locInv p1).
    { split; [|split].
      - unfold p1 at 2. cbn [ppStack]. rewrite HS in IO. inversion IO as [|? ? I0 IO']; subst. constructor; [|exact IO'].
        destruct I0 as (ch & N & Cc). exists ch. split; [exact N|]. cbn [itDone itRest]. rewrite Cc, HR, Eu. now rewrite app_assoc.
      - rewrite C1. unfold p1. cbn [ppMap]. eapply Forall_impl; [|exact MB]. cbn. intros; lia.
      - unfold p1. cbn [ppStack ppMap]. fold p1. rewrite HS in LI. destruct LI as (m & li & E1 & E2 & E3 & E4).
        exists m, li. cbn [itChain itDone]. repeat split; [exact E1|exact E2|exact E3|]. rewrite C1, zlen_app'. lia. }
    destruct (IH I1 _ _ E) as (H1 & H2 & H3). split; [exact H1|]. split; [|exact H3].
    eapply extends_trans; [|exact H2]. split; [exists []; unfold p1; cbn; now rewrite app_nil_r|]. rewrite C1.
    split; [|lia]. exists []. split; [unfold p1; cbn [ppMap]; now rewrite app_nil_r|constructor].
  - discriminate.
  - injection E as <- <-. set (p1 := mkPP (mkItem (itChain it) (itDone it ++ u) rest :: below) _ _ _ _ _ _ _) in *.
    assert (C0 : cur p = linearLoc (ppEnd p) (itRest it)) by (unfold cur; rewrite HS; reflexivity).
    assert (C1 : cur p1 = cur p + zlen u).
    { unfold cur, p1. rewrite HS. cbn [ppStack ppEnd itRest]. rewrite HR, zlen_app'. lia. }
    pose proof (zlen_pos u Nu). rewrite HS in IO. inversion IO as [|? ? I0 IO']; subst.
    destruct I0 as (ch & N & Cc). rewrite HS in LI. destruct LI as (m & li & E1 & E2 & E3 & E4).
    split; [split; [|split]|split].
    + unfold p1 at 2. cbn [ppStack]. constructor; [|exact IO'].
      exists ch. split; [exact N|]. cbn [itDone itRest]. rewrite Cc, HR. now rewrite app_assoc.
    + rewrite C1. unfold p1. cbn [ppMap]. eapply Forall_impl; [|exact MB]. cbn. intros; lia.
    + unfold p1. cbn [ppStack ppMap]. fold p1.
      exists m, li. cbn [itChain itDone]. repeat split; [exact E1|exact E2|exact E3|]. rewrite C1, zlen_app'. lia.
    + split; [exists []; unfold p1; cbn; now rewrite app_nil_r|]. rewrite C1.
      split; [|lia]. exists []. split; [unfold p1; cbn [ppMap]; now rewrite app_nil_r|constructor].
    + intros _. rewrite C1, <- C0. cbn [tokLoc]. split; [|lia].
      exists m, li, [], ch. unfold p1. cbn [ppMap ppChains tokLoc tokText]. rewrite E1 in MB. apply Forall_app in MB as [_ MB].
      inversion MB as [|? ? ML _]; subst. repeat split; [exact E1|exact ML|exact E2|constructor|rewrite E3; exact N|].
      rewrite E4. exists (itDone it), rest. split; [rewrite Cc, HR; reflexivity|reflexivity].
  - injection E as <- <-. set (p1 := mkPP (_ :: _ :: below) _ _ _ _ _ _ _) in *.
    assert (C0 : cur p = loc) by (unfold cur, loc; rewrite HS; reflexivity).
    assert (C1 : cur p1 = cur p).
    { rewrite C0. unfold cur, p1. cbn [ppStack ppEnd itRest]. lia. }
    rewrite HS in IO. inversion IO as [|? ? I0 IO']; subst x l.
    assert (EXT : exists mc, ppChains p1 = ppChains p ++ mc) by (unfold p1; cbn [ppChains]; eexists; reflexivity).
    split; [split; [|split]|split].
    + unfold p1 at 2. cbn [ppStack]. constructor; [|constructor].
      * eexists. split; [unfold p1; cbn [ppChains itChain]; rewrite nth_error_app2, Nat.sub_diag by lia; reflexivity|reflexivity].
      * destruct I0 as (ch & N & Cc). apply (itemOk_chains p p1 _ EXT). exists ch. split; [exact N|].
        cbn [itDone itRest]. rewrite Cc, HR. now rewrite <- !app_assoc.
      * eapply Forall_impl; [|exact IO']. intros it0. now apply itemOk_chains.
    + rewrite C1. unfold p1. cbn [ppMap]. apply Forall_app. split; [exact MB|]. constructor; [cbn; lia|constructor].
    + unfold p1. cbn [ppStack ppMap]. fold p1. eexists _, _. split; [reflexivity|]. cbn [locAt locChain locOffset itChain itDone].
      rewrite <- C0. split; [exact MB|]. split; [reflexivity|]. rewrite C1. cbn. lia.
    + split; [exact EXT|]. rewrite C1. split; [|lia]. eexists. split; [unfold p1; cbn [ppMap]; reflexivity|].
      constructor; [cbn; lia|constructor].
    + intros [X _]. cbn in X. congruence.
Qed.

Lemma findLast_before l i m1 : Forall (fun j => locAt j <= locAt i) m1 -> forall best rest,
  match best with Some b => locAt b <= locAt i | None => True end ->
  exists best', findLast l (m1 ++ rest) best = findLast l rest best' /\
    match best' with Some b => locAt b <= locAt i | None => True end.
Proof.
  intros F. induction F as [|j m1 Hj F IH]; intros best rest Hb; [now exists best|].
  cbn [findLast app]. apply IH. destruct (_ && _); [exact Hj|exact Hb].
Qed.
Lemma findLast_after l m2 : Forall (fun j => l < locAt j) m2 -> forall best, findLast l m2 best = best.
Proof.
  intros F. induction F as [|j m2 Hj F IH]; intros best; [reflexivity|]. cbn [findLast].
  replace (locAt j <=? l) with false by lia. apply IH.
Qed.
Lemma located_expand p t : located p t -> exists ci off ch, expandLoc (ppMap p) (tokLoc t) = Some (ci, off) /\
  nth_error (ppChains p) ci = Some ch /\ standsAt (chContents ch) off (tokText t).
Proof.
  intros (m1 & i & m2 & ch & E & Li & F1 & F2 & N & St). eexists _, _, ch. split; [|split; [exact N|exact St]].
  unfold expandLoc. rewrite E. destruct (findLast_before (tokLoc t) i m1 F1 None (i :: m2) Logic.I) as (best & -> & Hb).
  cbn [findLast]. replace (locAt i <=? tokLoc t) with true by lia.
  replace (match best with Some b => locAt b <=? locAt i | None => true end) with true by (destruct best; lia).
  cbn [andb]. rewrite (findLast_after _ _ F2). reflexivity.
Qed.

Lemma readAll_loc : forall f ang p ts q, locInv p -> readAll f ang p = Some (ts, q) ->
  extends p q /\ Forall (fun t => fileToken t -> located q t) ts.
Proof.
  induction f as [|f IH]; intros ang p ts q I; [discriminate|]. cbn [readAll].
  pose proof (readToken_call (hd false ang) p) as C. destruct (readToken (hd false ang) p) as [t p'| |] eqn:R; try discriminate.
  destruct (call_loc _ _ _ C I _ _ eq_refl) as (I' & X & L).
  assert (REC : match readAll f (tl ang) p' with Some (ts0, q0) => Some (t :: ts0, q0) | None => None end = Some (ts, q) ->
     extends p q /\ Forall (fun t => fileToken t -> located q t) ts).
  { destruct (readAll f (tl ang) p') as [[ts0 q0]|] eqn:E2; [|discriminate]. intros E. injection E as <- <-.
    destruct (IH _ _ _ _ I' E2) as (X2 & L2). split; [eapply extends_trans; eassumption|]. constructor; [|exact L2].
    intros Ft. destruct (L Ft) as [L0 L1]. exact (located_extends _ _ _ L0 L1 X2). }
  destruct (tokType t) eqn:TT; try exact REC.
  intros E. injection E as <- <-. split; [exact X|]. constructor; [|constructor]. intros [_ N]. congruence.
Qed.
Theorem locations_lead_back ms file f ang ts q : readAll f ang (start ms file) = Some (ts, q) ->
  Forall (fun t => fileToken t -> exists ci off ch, expandLoc (ppMap q) (tokLoc t) = Some (ci, off) /\
     nth_error (ppChains q) ci = Some ch /\ standsAt (chContents ch) off (tokText t)) ts.
Proof.
  intros E. apply readAll_loc in E as [_ E].
  - eapply Forall_impl; [|exact E]. intros t H Ft. apply located_expand, H, Ft.
  - split; [|split].
    + constructor; [|constructor]. exists (mkChain file false 0). split; reflexivity.
    + constructor; [|constructor]. cbn. unfold zlen. lia.
    + exists [], (mkLoc 0 0 0). cbn [start ppStack ppMap locAt locChain locOffset itChain itDone].
      repeat split; [constructor|]. unfold cur, start. cbn [ppStack ppEnd itRest]. cbn. lia.
Qed.
