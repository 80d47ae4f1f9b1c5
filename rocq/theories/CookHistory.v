(* Proofs about CookModel: histories of sessions, and sessions with nothing to do. *)
From Coq Require Import Lia ZifyBool ZifyNat Permutation.
From Verif Require Export CookSession.
Open Scope nat_scope.

Lemma dated_incl l k : incl k l -> dated l -> dated k.
Proof. intros H (A & B). split; [intros d p Hd; apply A, H, Hd|]. intros d d' p t Hd Hd'. apply B; auto. Qed.
Lemma reason_incl dbg jobs l k d w : incl l k -> reason dbg jobs l d w -> reason dbg jobs k d w.
Proof. intros H. destruct w; cbn; auto. intros (A & p & i & d0 & Hd & B). split; [exact A|]. exists p, i, d0. auto. Qed.

Lemma history_snoc dbg jobs fuel vs v : forall tr, history dbg jobs fuel tr (vs ++ [v]) =
  do (tr1, ls) <- history dbg jobs fuel tr vs; do (tr2, c) <- session dbg jobs (vorder v) (files v) fuel (wishes v) tr1 (todo v); Ok (tr2, ls ++ [c]).
Proof.
  induction vs as [|u vs IH]; intros tr; cbn [history app bind].
  - destruct (session _ _ _ _ _ _ _ _) as [(tr2, c)| |]; reflexivity.
  - destruct (session dbg jobs (vorder u) (files u) fuel (wishes u) tr (todo u)) as [(tr1, c)| |]; cbn [bind]; [|reflexivity|reflexivity].
    rewrite IH. destruct (history dbg jobs fuel tr1 vs) as [(tr2, ls)| |]; cbn [bind]; [|reflexivity|reflexivity].
    destruct (session dbg jobs (vorder v) (files v) fuel (wishes v) tr2 (todo v)) as [(tr3, c')| |]; reflexivity.
Qed.

Section History.
Context (dbg : bool) (jobs : id -> prog) (ok : id -> Prop) (fuel : nat).
Hypothesis Htidy : forall i, tidy [] [] (jobs i).
Hypothesis Hwithin : forall i, ok i -> within ok (jobs i).

Lemma history_ok vs : dated (map files vs) -> Forall (fun v => careful (todo v) /\ anyOrder (vorder v)) vs -> (forall v i, In v vs -> In i (asked (todo v)) -> ok i) ->
  match history dbg jobs fuel noJobs vs with
  | Ok (tr, logs) => trackerInv jobs ok (rev (map files vs)) tr /\ length logs = length vs /\ Forall (fun l => NoDup l /\ forall i, In i l -> ok i) logs
  | Dead w => exists l v r, vs = l ++ v :: r /\ reason dbg jobs (map files l) (files v) w
  | Deep => exists l, length l = fuel /\ NoDup l /\ forall i, In i l -> ok i
  end.
Proof.
  induction vs as [|v vs IH] using rev_ind; intros DT FA OK.
  - cbn. split; [apply noJobs_ok|]. auto.
  - rewrite map_app in DT. apply Forall_app in FA. destruct FA as (FA & FV). inversion FV as [|v' l' (CV & OV) _]; subst v' l'.
    specialize (IH (dated_incl _ _ (incl_appl _ (incl_refl _)) DT) FA (fun u i h => OK u i (in_or_app _ _ _ (or_introl h)))).
    rewrite history_snoc. destruct (history dbg jobs fuel noJobs vs) as [(tr, logs)|w|]; cbn [bind]; [| |exact IH].
    + destruct IH as (TI & LL & FL).
      assert (DT' : dated (files v :: rev (map files vs))). { eapply dated_incl; [|exact DT]. intros x [<-|Hx]; apply in_or_app; [right; now left|left; now apply in_rev]. }
      pose proof (session_ok dbg jobs (vorder v) (files v) _ ok DT' Htidy Hwithin OV fuel (wishes v) tr (todo v) CV (fun i h => OK v i (in_elt v vs []) h) TI) as S.
      destruct (session dbg jobs (vorder v) (files v) fuel (wishes v) tr (todo v)) as [(tr2, c)|w|]; cbn [bind]; [| |exact S].
      * destruct S as (TI2 & ND & OKC & _ & _). split; [rewrite map_app, rev_app_distr; exact TI2|]. split; [rewrite !app_length, LL; reflexivity|]. apply Forall_app. split; [exact FL|]. constructor; auto.
      * exists vs, v, []. split; [reflexivity|]. eapply reason_incl; [|exact S]. intros x Hx. now apply in_rev.
    + destruct IH as (l & u & r & -> & R). exists l, u, (r ++ [v]). split; [now rewrite <- app_assoc|exact R].
Qed.
Lemma history_right vs v tr logs : dated (map files (vs ++ [v])) -> Forall (fun v => careful (todo v) /\ anyOrder (vorder v)) (vs ++ [v]) -> (forall u i, In u (vs ++ [v]) -> In i (asked (todo u)) -> ok i) ->
  history dbg jobs fuel noJobs (vs ++ [v]) = Ok (tr, logs) -> forall i k, In i (asked (todo v)) -> needs jobs (files v) i k -> correct jobs (files v) tr k.
Proof.
  intros DT FA OK H. rewrite map_app in DT. apply Forall_app in FA. destruct FA as (FA & FV). inversion FV as [|v' l' (CV & OV) _]; subst v' l'.
  pose proof (history_ok vs (dated_incl _ _ (incl_appl _ (incl_refl _)) DT) FA (fun u i h => OK u i (in_or_app _ _ _ (or_introl h)))) as P.
  rewrite history_snoc in H. destruct (history dbg jobs fuel noJobs vs) as [(tr1, ls)|w|]; cbn [bind] in H; [|discriminate|discriminate]. destruct P as (TI & _).
  assert (DT' : dated (files v :: rev (map files vs))). { eapply dated_incl; [|exact DT]. intros x [<-|Hx]; apply in_or_app; [right; now left|left; now apply in_rev]. }
  pose proof (session_ok dbg jobs (vorder v) (files v) _ ok DT' Htidy Hwithin OV fuel (wishes v) tr1 (todo v) CV (fun i h => OK v i (in_elt v vs []) h) TI) as S.
  destruct (session dbg jobs (vorder v) (files v) fuel (wishes v) tr1 (todo v)) as [(tr2, c)|w|]; cbn [bind] in H; [|discriminate|discriminate]. injection H as <- <-. apply S.
Qed.
End History.

(** * A session in which nothing has changed *)
Lemma drop_shrinks fuel : forall s l s', drop fuel s l = Ok s' -> shrinks s s'.
Proof.
  induction fuel as [|fuel IH]; intros s [|a l] s'; cbn [drop]; try discriminate; try (intros [= <-]; apply shrinks_refl).
  destruct (getJob s a) as [j|] eqn:E; [|discriminate]. pose proof (getJob_lt _ _ _ E) as L. destruct (count j) as [|[|n]]; [discriminate| |].
  - intros H. apply IH in H. eapply shrinks_trans; [|exact H]. split; [|cbn; apply upd_length|repeat split]. intros b k. rewrite getJob_set by exact L. destruct (a =? b); [discriminate|]. eauto.
  - intros H. apply IH in H. eapply shrinks_trans; [|exact H]. split; [|cbn; apply upd_length|repeat split].
    intros b k. rewrite getJob_set by exact L. destruct (Nat.eqb_spec a b) as [->|]; [|eauto]. intros [= <-]. now exists j.
Qed.
Lemma inc_shrinks s a s' : inc s a = Ok s' -> shrinks s s'.
Proof.
  unfold inc. destruct (getJob s a) as [j|] eqn:E; [|discriminate]. intros [= <-]. pose proof (getJob_lt _ _ _ E) as L. split; [|cbn; apply upd_length|repeat split].
  intros b k. rewrite getJob_set by exact L. destruct (Nat.eqb_spec a b) as [->|]; [|eauto]. intros [= <-]. now exists j.
Qed.
Lemma incAll_shrinks l : forall s s', incAll s l = Ok s' -> shrinks s s'.
Proof.
  induction l as [|a l IH]; intros s s'; cbn [incAll]; [intros [= <-]; apply shrinks_refl|]. destruct (inc s a) as [s1| |] eqn:E; cbn [bind]; try discriminate.
  intros H. eapply shrinks_trans; [eapply inc_shrinks; eauto|now apply IH].
Qed.

Section Idle.
Context (dbg : bool) (jobs : id -> prog) (order : list addr -> list addr) (d : disk) (D : list disk) (ok : id -> Prop).
Hypothesis Hdated : dated (d :: D).
Hypothesis Htidy : forall i, tidy [] [] (jobs i).
Hypothesis Hwithin : forall i, ok i -> within ok (jobs i).
Hypothesis Horder : anyOrder order.
Context (s0 : st) (good : addr -> Prop).
Hypothesis Hgood : forall a j, good a -> getJob s0 a = Some j -> exists r, res j = Some r /\ (forall p t, In (p, t) (deps r) -> still d p t) /\ (forall b, In b (refs r) -> good b).

Record lazy (s : st) : Prop := mklazy {
  z_jobs : forall a k, getJob s a = Some k -> exists j, getJob s0 a = Some j /\ jid j = jid k /\ res j = res k;
  z_cooked : cooked s = [];
  z_good : forall a, known s a \/ In a (deferred s) -> good a }.
Lemma lazy_shrinks s s' : shrinks s s' -> lazy s -> lazy s'.
Proof.
  intros [J _ (_ & EC & ED & EK)] Z. split.
  - intros a k G. destruct (J a k G) as (j & G1 & I1 & R1). destruct (z_jobs _ Z a j G1) as (j0 & G0 & I0 & R0). exists j0. repeat split; congruence.
  - rewrite EK. apply Z.
  - unfold known. rewrite EC, ED. apply Z.
Qed.
Lemma ensure_lazy fuel s a s' : lazy s -> good a -> ensureCooked dbg jobs d fuel s a = Ok s' -> lazy s'.
Proof.
  intros Z GA. destruct fuel as [|fuel]; [discriminate|]. cbn [ensureCooked]. destruct (status (checked s) a) as [[|]|] eqn:SA; [intros [= <-]; exact Z|discriminate|].
  destruct (getJob s a) as [j|] eqn:E; [|discriminate]. destruct (z_jobs _ Z a j E) as (j0 & G0 & I0 & R0). destruct (Hgood a j0 GA G0) as (r & R & ST & RG).
  assert (RJ : res j = Some r) by congruence. rewrite RJ. pose proof (changed_ok dbg d (deps r)) as C. destruct (changed dbg d (deps r)) as [[|]|w|]; cbn [bind]; try discriminate.
  { destruct C as (p & t & H & N). destruct (N (ST p t H)). }
  cbn [setChecked setDeferred checked heap wish deferred cooked]. rewrite status_app, SA, Nat.eqb_refl. intros [= <-]. split; [apply Z|apply Z|].
  intros b. unfold known, setChecked, setDeferred. cbn [deferred checked]. rewrite defers_in, status_mark, !status_app, SA, Nat.eqb_refl. destruct (Nat.eqb_spec a b) as [<-|N]; [auto|].
  intros [H|[H|H]]; [|apply Z; auto|now apply RG]. apply Z. left. unfold known. destruct (status (checked s) b); congruence.
Qed.
Lemma ensureAll_lazy fuel l : forall s s', lazy s -> (forall a, In a l -> good a) -> ensureAll dbg jobs d fuel s l = Ok s' -> lazy s'.
Proof.
  induction l as [|a l IH]; intros s s' Z GL; cbn [ensureAll]; [intros [= <-]; exact Z|]. destruct (ensureCooked dbg jobs d fuel s a) as [s1| |] eqn:E; cbn [bind]; try discriminate.
  apply IH; [eapply ensure_lazy; eauto; apply GL; now left|]. intros b Hb. apply GL. now right.
Qed.
Lemma cookDeferred_lazy fuel : forall s s', lazy s -> cookDeferred dbg jobs order d fuel s = Ok s' -> lazy s'.
Proof.
  induction fuel as [|fuel IH]; intros s s' Z; cbn [cookDeferred].
  - destruct (deferred s); [intros [= <-]; exact Z|discriminate].
  - destruct (deferred s) as [|x0 l0] eqn:ED; [intros [= <-]; exact Z|]. rewrite <- ED. clear ED x0 l0.
    destruct (incAll s (order (deferred s))) as [s1| |] eqn:E1; cbn [bind]; try discriminate.
    destruct (ensureAll dbg jobs d (S fuel) (setDeferred s1 []) (order (deferred s))) as [s2| |] eqn:E2; cbn [bind]; try discriminate.
    destruct (dropAll s2 (order (deferred s))) as [s3| |] eqn:E3; cbn [bind]; try discriminate. apply IH.
    apply (lazy_shrinks s2); [exact (drop_shrinks _ _ _ _ E3)|]. apply (ensureAll_lazy _ _ _ _ ) in E2; [exact E2| |].
    + pose proof (lazy_shrinks _ _ (incAll_shrinks _ _ _ E1) Z) as Z1. split; [apply Z1|apply Z1|]. intros a [H|[]]. apply Z1. now left.
    + intros a Ha. apply Z. right. now apply (Permutation_in _ (Horder (deferred s))).
Qed.
Notation Inv := (Inv jobs d D ok).
Lemma commands_lazy fuel R cs : forall s held s' held', Forall keeping cs -> (forall i, In i (asked cs) -> ok i) -> Inv s (held ++ R) held [] -> calm s ->
  lazy s -> (forall a i, good a -> idOf s0 a i -> forall b, idOf s0 b i -> good b) -> (forall i, In i (asked cs) -> exists b, In b R /\ idOf s0 b i /\ good b) ->
  commands dbg jobs order d fuel s held cs = Ok (s', held') -> lazy s'.
Proof.
  induction cs as [|c cs IH]; intros s held s' held' KE OK I C Z U RT; cbn [commands]; [intros [= <- <-]; exact Z|].
  inversion KE as [|c' cs' KC KE']; subst c' cs'. destruct c as [i|i|i|]; cbn in KC; try contradiction.
  - destruct (RT i (or_introl eq_refl)) as (b & Hb & Ib & Gb).
    assert (OI : ok i) by (apply OK; now left).
    destruct (acquire_ok jobs d D ok s i _ _ _ I OI) as (s1 & a & E & I1 & T1 & IA & EC & ED & EK). rewrite E. cbn [bind].
    assert (I1' : Inv s1 ((held ++ [a]) ++ R) (held ++ [a]) []).
    { apply (inv_perm jobs d D ok s1 (a :: held ++ R) _ (a :: held)).
      - apply (inv_kp _ _ _ _ _ _ held); [exact I1|apply incl_tl, incl_refl|]. intros x [<-|Hx]; [now left|right; apply in_or_app; now left].
      - intros x. rewrite occ_cons, !occ_app, occ_cons. destruct (a =? x); cbn; lia.
      - intros x. rewrite in_app_iff. cbn. tauto. }
    assert (SH : shrinks s s1 /\ good a).
    { unfold acquire in E. destruct (findJob (heap s) i) as [a'|] eqn:F.
      - destruct (inc s a') as [s1'| |] eqn:EI; cbn [bind] in E; try discriminate. assert (s1' = s1 /\ a' = a) as (-> & ->) by (split; congruence).
        split; [eapply inc_shrinks; eauto|]. destruct (findJob_some _ _ _ F) as (j & G & IJ). destruct (z_jobs _ Z a j ltac:(unfold getJob; now rewrite G)) as (j0 & G0 & I0 & _).
        apply (U b i Gb Ib). exists j0. split; [exact G0|congruence].
      - exfalso. destruct (wf_alive _ _ b (i_wf _ _ _ _ _ _ _ _ I) ltac:(apply in_or_app; now right)) as (j & G). destruct (z_jobs _ Z b j G) as (j0 & G0 & I0 & _).
        destruct Ib as (j0' & G0' & I0'). apply (findJob_none _ _ F b j); [now apply getJob_nth|congruence]. }
    destruct SH as (SH & GA). pose proof (calm_step _ _ _ _ (T1 (fun _ => False)) C) as C1.
    pose proof (ensure_ok dbg jobs d D ok Hdated Htidy Hwithin fuel s1 _ _ _ a I1' ltac:(apply in_or_app; right; now left) (fun h => match C1 a h with end)) as H.
    destruct (ensureCooked dbg jobs d fuel s1 a) as [s2|w|] eqn:E2; cbn [bind]; try discriminate. destruct H as (I2 & T2 & S2).
    intros HC. apply (IH s2 (held ++ [a]) s' held' KE' (fun k h => OK k (or_intror h)) I2 (calm_step _ _ _ _ T2 C1)); auto.
    + eapply ensure_lazy; [|exact GA|exact E2]. eapply lazy_shrinks; eauto.
    + intros k Hk. apply RT. now right.
  - pose proof (cookDeferred_ok dbg jobs order d D ok Hdated Htidy Hwithin Horder fuel s _ _ I C) as H. destruct (cookDeferred dbg jobs order d fuel s) as [s1|w|] eqn:E; cbn [bind]; try discriminate.
    destruct H as (I1 & T1 & C1 & D1). intros HC. apply (IH s1 held s' held' KE' OK I1 C1); auto. eapply cookDeferred_lazy; eauto.
Qed.
End Idle.

Lemma looked_reading d q p t : In (p, t) (looked (fresh d q)) -> t = match d p with Text t _ => t | _ => 0%Z end.
Proof.
  induction q as [|x k IH|p' k IH|i k IH|i k IH].
  - intros [].
  - rewrite fresh_emit. intros H. apply IH. destruct (fresh d k) as [[[? ?] ?] ?]. exact H.
  - rewrite fresh_open. unfold reading. destruct (d p') as [|u|u c] eqn:E; intros H.
    + specialize (IH None). destruct (fresh d (k None)) as [[[? ?] ?] ?]. cbn in *. destruct H as [[= <- <-]|H]; [now rewrite E|auto].
    + specialize (IH None). destruct (fresh d (k None)) as [[[? ?] ?] ?]. cbn in *. destruct H as [[= <- <-]|H]; [now rewrite E|auto].
    + specialize (IH (Some c)). destruct (fresh d (k (Some c))) as [[[? ?] ?] ?]. cbn in *. destruct H as [[= <- <-]|H]; [now rewrite E|auto].
  - rewrite fresh_refer. intros H. apply IH. destruct (fresh d k) as [[[? ?] ?] ?]. exact H.
  - exact IH.
Qed.
Lemma history_idle dbg jobs fuel vs v v' tr logs : (forall i, tidy [] [] (jobs i)) -> dated (map files (vs ++ [v; v'])) ->
  Forall (fun v => careful (todo v) /\ anyOrder (vorder v)) (vs ++ [v; v']) -> incl (asked (todo v')) (asked (todo v)) -> untouched jobs (asked (todo v)) (files v) (files v') ->
  history dbg jobs fuel noJobs (vs ++ [v; v']) = Ok (tr, logs) -> exists l, logs = l ++ [[]].
Proof.
  intros TD DT FA IN UT H. set (ok := fun _ : id => True). assert (WI : forall i, ok i -> within ok (jobs i)).
  { intros i _. induction (jobs i) as [|x k IH|p k IH|k q IH|k q IH]; cbn; auto; split; try exact Logic.I; exact IH. }
  change (vs ++ [v; v']) with (vs ++ [v] ++ [v']) in *. rewrite app_assoc in *.
  rewrite map_app in DT. apply Forall_app in FA. destruct FA as (FA & FV). inversion FV as [|v1 l1 (CV & OV) _]; subst v1 l1.
  assert (DT1 : dated (map files (vs ++ [v]))) by (exact (dated_incl _ _ (incl_appl _ (incl_refl _)) DT)).
  pose proof (history_ok dbg jobs ok fuel TD WI (vs ++ [v]) DT1 FA (fun _ _ _ _ => Logic.I)) as P1.
  pose proof (history_right dbg jobs ok fuel TD WI vs v) as P2.
  rewrite history_snoc in H. destruct (history dbg jobs fuel noJobs (vs ++ [v])) as [(tr1, ls)| |] eqn:EH; cbn [bind] in H; try discriminate.
  specialize (P2 tr1 ls DT1 FA (fun _ _ _ _ => Logic.I) eq_refl). destruct P1 as (TI & _).
  destruct (session dbg jobs (vorder v') (files v') fuel (wishes v') tr1 (todo v')) as [(tr2, c)| |] eqn:ES; cbn [bind] in H; try discriminate. injection H as <- <-. exists ls. do 2 f_equal.
  (* the roots left by the session before *)
  assert (RT : forall i, In i (asked (todo v)) -> exists a, In a (roots tr1) /\ idOf (mkst (theap tr1) [] [] [] []) a i).
  { apply Forall_app in FA. destruct FA as (FA & FV1). inversion FV1 as [|v1 l1 (CV1 & OV1) _]; subst v1 l1. rewrite map_app in DT1.
    pose proof (history_ok dbg jobs ok fuel TD WI vs (dated_incl _ _ (incl_appl _ (incl_refl _)) DT1) FA (fun _ _ _ _ => Logic.I)) as P.
    rewrite history_snoc in EH. destruct (history dbg jobs fuel noJobs vs) as [(tr0, ls0)| |]; cbn [bind] in EH; try discriminate. destruct P as (TI0 & _).
    assert (DT' : dated (files v :: rev (map files vs))). { eapply dated_incl; [|exact DT1]. intros x [<-|Hx]; apply in_or_app; [right; now left|left; now apply in_rev]. }
    pose proof (session_ok dbg jobs (vorder v) (files v) _ ok DT' TD WI OV1 fuel (wishes v) tr0 (todo v) CV1 (fun _ _ => Logic.I) TI0) as S.
    destruct (session dbg jobs (vorder v) (files v) fuel (wishes v) tr0 (todo v)) as [(tr1', c1)| |]; cbn [bind] in EH; try discriminate. injection EH as <- <-. apply S. }
  assert (DT' : dated (files v' :: rev (map files (vs ++ [v])))). { eapply dated_incl; [|exact DT]. intros x [<-|Hx]; apply in_or_app; [right; now left|left; now apply in_rev]. }
  set (d := files v) in *. set (d' := files v') in *. set (s0 := mkst (theap tr1) (wishes v') [] [] []).
  pose proof (TI (wishes v') d') as I0. fold s0 in I0.
  set (good := fun a => exists i k, In i (asked (todo v)) /\ needs jobs d i k /\ idOf s0 a k).
  assert (HG : forall a j, good a -> getJob s0 a = Some j -> exists r, res j = Some r /\ (forall p t, In (p, t) (deps r) -> still d' p t) /\ (forall b, In b (refs r) -> good b)).
  { intros a j (i & k & Hi & N & (j1 & G1 & I1)) G. assert (j1 = j) by congruence. subst j1. pose proof (P2 i k Hi N) as CR. unfold correct, resultOf in CR.
    destruct (findJob (theap tr1) k) as [b|] eqn:F; [|discriminate]. destruct (findJob_some _ _ _ F) as (j2 & G2 & I2). assert (GB : getJob s0 b = Some j2) by (unfold getJob, s0; cbn; now rewrite G2).
    assert (b = a) by (apply (wf_ids _ _ (i_wf _ _ _ _ _ _ _ _ I0) b a j2 j GB G); congruence). subst b. assert (j2 = j) by congruence. subst j2. rewrite G2 in CR.
    destruct j as [ji jc [r|]]; [|discriminate]. exists r. split; [reflexivity|].
    assert (LK : deps r = looked (fresh d (jobs k)) /\ map (fun b => match nth_error (theap tr1) b with Some (Some j) => Some (jid j) | _ => None end) (refs r) = map Some (referred (fresh d (jobs k)))).
    { destruct (fresh d (jobs k)) as [[[ds rs] os] es]. injection CR as E1 E2 _ _. auto. }
    destruct LK as (LK1 & LK2). split.
    - intros p t Ht. rewrite LK1 in Ht. pose proof (looked_reading _ _ _ _ Ht) as ET. destruct (UT i k p Hi N (in_map fst _ _ Ht)) as (SAME & NS).
      unfold still, stat. rewrite SAME. destruct (d p) as [|u|u c0]; [right; auto|destruct (NS u eq_refl)|left; congruence].
    - intros b Hb. pose proof (in_map (fun b => match nth_error (theap tr1) b with Some (Some j) => Some (jid j) | _ => None end) _ _ Hb) as Q. rewrite LK2 in Q. cbn beta in Q.
      apply in_map_iff in Q. destruct Q as (y & EY & HY). exists i, y. split; [exact Hi|]. split; [eapply needs_ref; eauto|].
      unfold idOf, getJob, s0. cbn. destruct (nth_error (theap tr1) b) as [[jb|]|]; try discriminate. exists jb. split; [reflexivity|congruence]. }
  unfold session in ES. fold s0 in ES. destruct (commands dbg jobs (vorder v') d' fuel s0 [] (todo v')) as [(s1, held)| |] eqn:EC; cbn [bind] in ES; try discriminate.
  destruct (dropAll s1 (roots tr1)) as [s2| |] eqn:ED; cbn [bind] in ES; try discriminate. destruct (deferred s2); [|discriminate]. injection ES as _ <-.
  assert (Z1 : lazy s0 good s1).
  { refine (commands_lazy dbg jobs (vorder v') d' _ ok DT' TD WI OV s0 good HG fuel (roots tr1) (todo v') s0 [] s1 held (proj1 CV) (fun _ _ => Logic.I) I0 _ _ _ _ EC).
    - intros a. cbn. discriminate.
    - split; [intros a k G; exists k; auto|reflexivity|]. intros a [H|[]]. destruct H. reflexivity.
    - intros a i (i0 & k & Hi & N & Ik) Ia b Ib. rewrite (idOf_unique _ _ _ _ Ia Ik) in Ib. exists i0, k. auto.
    - intros i Hi. apply IN in Hi. destruct (RT i Hi) as (a & Ha & Ia). exists a. split; [exact Ha|]. assert (Ia' : idOf s0 a i) by exact Ia. split; [exact Ia'|]. exists i, i. split; [exact Hi|]. split; [constructor|exact Ia']. }
  apply (lazy_shrinks _ _ _ _ (drop_shrinks _ _ _ _ ED)) in Z1. apply Z1.
Qed.
