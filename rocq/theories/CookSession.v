(* Proofs about CookModel: cooking with all that is deferred, sessions and histories. *)
From Coq Require Import Lia ZifyBool ZifyNat Permutation.
From Verif Require Export CookRun.
Open Scope nat_scope.

Lemma inv_perm jobs d D ok s X X' Kp Kp' P : Inv jobs d D ok s X Kp P -> (forall a, occ a X = occ a X') -> (forall a, In a Kp <-> In a Kp') -> Inv jobs d D ok s X' Kp' P.
Proof.
  intros I HX HK. split; try apply I.
  - eapply wf_perm; [apply I|exact HX].
  - intros a Ha. apply HK, (i_kp _ _ _ _ _ _ _ _ I), occ_in in Ha. apply occ_in. now rewrite <- HX.
  - intros a H. rewrite <- HK. now apply (i_anchor _ _ _ _ _ _ _ _ I).
Qed.
Lemma inv_unkp jobs d D ok s X Kp Kp' P : Inv jobs d D ok s X Kp' P -> incl Kp X ->
  (forall a, In a Kp' -> In a Kp \/ exists b j, known s b /\ getJob s b = Some j /\ In a (refsOf (res j))) -> Inv jobs d D ok s X Kp P.
Proof. intros I K H. split; try apply I; auto. intros a Ha. destruct (i_anchor _ _ _ _ _ _ _ _ I a Ha); auto. Qed.

Section Session.
Context (dbg : bool) (jobs : id -> prog) (order : list addr -> list addr) (d : disk) (D : list disk) (ok : id -> Prop).
Hypothesis Hdated : dated (d :: D).
Hypothesis Htidy : forall i, tidy [] [] (jobs i).
Hypothesis Hwithin : forall i, ok i -> within ok (jobs i).
Hypothesis Horder : anyOrder order.
Notation Inv := (Inv jobs d D ok).
Notation just := (reason dbg jobs D d).
Notation post := (post dbg jobs d D ok).

(** What was recorded for a file is still so. *)
Definition still (p : path) (t : Z) : Prop := stat d p = Some t \/ stat d p = None /\ t = 0%Z.
Lemma changed_ok l : match changed dbg d l with
  | Ok true => exists p t, In (p, t) l /\ ~ still p t
  | Ok false => forall p t, In (p, t) l -> still p t
  | Dead w => w = Missing /\ dbg = true /\ exists p, In p (map fst l) /\ d p = Gone
  | Deep => False
  end.
Proof.
  induction l as [|(p, t) l IH]; cbn [changed]; [intros p t []|].
  assert (Q : still p t -> match changed dbg d l with
    | Ok true => exists q u, In (q, u) ((p, t) :: l) /\ ~ still q u
    | Ok false => forall q u, In (q, u) ((p, t) :: l) -> still q u
    | Dead w => w = Missing /\ dbg = true /\ exists q, In q (map fst ((p, t) :: l)) /\ d q = Gone
    | Deep => False end).
  { intros S. destruct (changed dbg d l) as [[|]|w|]; auto.
    - destruct IH as (q & u & H & N). exists q, u. split; [now right|exact N].
    - intros q u [[= <- <-]|H]; auto.
    - destruct IH as (A & B & q & H & G). split; [exact A|]. split; [exact B|]. exists q. split; [now right|exact G]. }
  destruct (stat d p) as [t'|] eqn:E.
  - destruct (Z.eqb_spec t' t) as [->|N].
    + apply Q. now left.
    + exists p, t. split; [now left|]. intros [S|(S & _)]; congruence.
  - destruct dbg eqn:DB.
    + split; [reflexivity|]. split; [reflexivity|]. exists p. split; [now left|]. unfold stat in E. destruct (d p); [reflexivity|discriminate|discriminate].
    + destruct (Z.eqb_spec 0 t) as [<-|N].
      * apply Q. right. auto.
      * exists p, t. split; [now left|]. intros [S|(_ & S)]; congruence.
Qed.
Lemma fresh_same d0 q : In d0 D -> (forall p t, In (p, t) (looked (fresh d0 q)) -> still p t) -> fresh d q = fresh d0 q.
Proof.
  intros Hd. induction q as [|x k IH|p k IH|i k IH|i k IH]; intros H.
  - reflexivity.
  - rewrite !fresh_emit in *. rewrite IH; [reflexivity|]. intros p t Ht. apply H. destruct (fresh d0 k) as [[[? ?] ?] ?]. exact Ht.
  - rewrite !fresh_open in *.
    assert (E : reading d p = reading d0 p).
    { unfold reading in *. destruct Hdated as (NZ & SAME).
      assert (ST : still p (match d0 p with Text t _ => t | _ => 0%Z end)).
      { apply H. destruct (d0 p); destruct (fresh d0 (k _)) as [[[? ?] ?] ?]; now left. }
      destruct (d0 p) as [|t|t c] eqn:E0.
      - destruct ST as [S|(S & _)]; [destruct (NZ d p (or_introl eq_refl) S)|]. unfold stat in S. destruct (d p); [reflexivity|discriminate|discriminate].
      - destruct ST as [S|(S & _)]; [destruct (NZ d p (or_introl eq_refl) S)|]. unfold stat in S. destruct (d p); [reflexivity|discriminate|discriminate].
      - assert (T0 : stat d0 p = Some t) by (unfold stat; now rewrite E0). destruct ST as [S|(_ & ->)]; [|destruct (NZ d0 p (or_intror Hd) T0)].
        rewrite (SAME d d0 p t (or_introl eq_refl) (or_intror Hd) S T0), E0. reflexivity. }
    rewrite E. destruct (reading d0 p) as [[t e] c]. rewrite IH; [reflexivity|]. intros q u Hu. apply H. destruct (fresh d0 (k c)) as [[[? ?] ?] ?]. cbn in *. now right.
  - rewrite !fresh_refer in *. rewrite IH; [reflexivity|]. intros p t Ht. apply H. destruct (fresh d0 k) as [[[? ?] ?] ?]. exact Ht.
  - cbn in *. now apply IH.
Qed.

Lemma defer_in l a x : In x (defer l a) <-> In x l \/ x = a.
Proof.
  unfold defer. destruct (existsb (Nat.eqb a) l) eqn:E.
  - apply existsb_exists in E. destruct E as (b & Hb & Eb). apply Nat.eqb_eq in Eb. subst b. split; [auto|]. intros [?| ->]; auto.
  - rewrite in_app_iff. cbn. intuition.
Qed.
Lemma defers_in k l x : In x (fold_left defer k l) <-> In x l \/ In x k.
Proof. revert l. induction k as [|a k IH]; intros l; cbn; [tauto|]. rewrite IH, defer_in. intuition. Qed.

Lemma start_ok s X Kp P a j : Inv s X Kp P -> In a Kp -> status (checked s) a = None -> getJob s a = Some j ->
  let s1 := mkst (upd (heap s) a (Some (mkjob (jid j) (count j) (Some noResult)))) (wish s) (checked s ++ [(a, false)]) (deferred s) (cooked s ++ [jid j]) in
  Inv s1 (refsOf (res j) ++ X) Kp P /\ getJob s1 a = Some (mkjob (jid j) (count j) (Some noResult)) /\ status (checked s1) a = Some false /\
  (forall b, b <> a -> getJob s1 b = getJob s b /\ status (checked s1) b = status (checked s) b) /\ (forall b i, idOf s b i -> idOf s1 b i).
Proof.
  intros I KA SN E s1. pose proof (getJob_lt _ _ _ E) as L.
  assert (G : forall b, getJob s1 b = if a =? b then Some (mkjob (jid j) (count j) (Some noResult)) else getJob s b) by (intros; change (getJob s1 b) with (getJob (setJob s a (Some (mkjob (jid j) (count j) (Some noResult)))) b); now apply getJob_set).
  assert (ST : forall b, status (checked s1) b = if a =? b then Some false else status (checked s) b).
  { intros b. cbn [checked s1]. rewrite status_app. destruct (Nat.eqb_spec a b) as [<-|N]; [now rewrite SN|]. now destruct (status (checked s) b). }
  assert (ID : forall b i, idOf s b i -> idOf s1 b i).
  { intros b i (k & Ek & <-). unfold idOf. rewrite G. destruct (Nat.eqb_spec a b) as [<-|N]; [|eauto]. eexists. split; [reflexivity|]. cbn. congruence. }
  assert (KS : forall b, known s b -> known s1 b /\ b <> a).
  { intros b H. unfold known in *. rewrite ST. destruct (Nat.eqb_spec a b) as [<-|N]; [congruence|]. split; [exact H|congruence]. }
  assert (SK : forall b, known s1 b -> b = a \/ known s b).
  { intros b H. destruct (Nat.eq_dec b a) as [->|N]; [now left|right]. unfold known in *. rewrite ST in H. now rewrite (proj2 (Nat.eqb_neq a b)) in H by congruence. }
  split; [|split; [|split; [|split]]].
  - split.
    + split.
      * intros b c k1 k2. rewrite !G. intros E1 E2 IE.
        assert (Q : forall b k, (if a =? b then Some (mkjob (jid j) (count j) (Some noResult)) else getJob s b) = Some k -> exists k', getJob s b = Some k' /\ jid k' = jid k).
        { intros b' k H. destruct (Nat.eqb_spec a b') as [<-|]; [injection H as <-; now exists j|now exists k]. }
        destruct (Q _ _ E1) as (k1' & G1 & I1). destruct (Q _ _ E2) as (k2' & G2 & I2). apply (wf_ids _ _ (i_wf _ _ _ _ _ _ _ _ I) b c k1' k2' G1 G2). congruence.
      * intros b. rewrite G. pose proof (inner_set s a j (Some (mkjob (jid j) (count j) (Some noResult))) b E) as IN. cbn [res refsOf] in IN. change (occ b (refs noResult)) with 0 in IN.
        change (heap s1) with (heap (setJob s a (Some (mkjob (jid j) (count j) (Some noResult))))).
        pose proof (wf_count _ _ (i_wf _ _ _ _ _ _ _ _ I) b) as C. rewrite occ_app. destruct (Nat.eqb_spec a b) as [<-|N]; [rewrite E in C; cbn [count]; lia|]. destruct (getJob s b); lia.
    + intros x Hx. apply in_or_app. right. now apply (i_kp _ _ _ _ _ _ _ _ I).
    + intros b H. assert (H' : b = a \/ known s b \/ In b (deferred s)). { destruct H as [H|H]; [destruct (SK b H); auto|auto]. }
      destruct H' as [->|H']; [now left|]. destruct (i_anchor _ _ _ _ _ _ _ _ I b H') as [?|(c & k & Kc & Gc & Rc)]; [now left|right]. destruct (KS c Kc) as (Kc' & NC).
      exists c, k. split; [exact Kc'|]. rewrite G. rewrite (proj2 (Nat.eqb_neq a c)) by congruence. auto.
    + intros b k c Kb. rewrite G. destruct (Nat.eqb_spec a b) as [<-|N]; [intros [= <-] []|]. intros Gk Rk. destruct (SK b Kb) as [?|Kb']; [congruence|].
      destruct (i_closed _ _ _ _ _ _ _ _ I b k c Kb' Gk Rk) as [H|[?|?]]; auto. left. now apply KS.
    + intros b. rewrite ST. destruct (Nat.eqb_spec a b) as [<-|N]; [discriminate|]. intros H. destruct (i_true _ _ _ _ _ _ _ _ I b H) as (k & x & Gk & Rk & M). exists k, x. rewrite G, (proj2 (Nat.eqb_neq a b) N). split; [exact Gk|]. split; [exact Rk|]. eapply matches_carry; [|exact M]. auto.
    + intros b k x. rewrite G, ST. destruct (Nat.eqb_spec a b) as [<-|N]; [discriminate|]. intros Gk Rk H. destruct (i_hist _ _ _ _ _ _ _ _ I b k x Gk Rk H) as (d0 & Hd & M). exists d0. split; [exact Hd|]. eapply matches_carry; [|exact M]. auto.
    + intros b k. rewrite G. destruct (Nat.eqb_spec a b) as [<-|N]; [intros [= <-]; exact (i_ids _ _ _ _ _ _ _ _ I a j E)|]. apply (i_ids _ _ _ _ _ _ _ _ I).
    + destruct (i_cooked _ _ _ _ _ _ _ _ I) as (N & C). cbn [cooked s1]. split.
      * apply (Permutation_NoDup (Permutation_cons_append (cooked s) (jid j))). constructor; [|exact N]. intros H. destruct (C _ H) as (b & Kb & (k & Gk & Ik)).
        destruct (KS b Kb) as (_ & NB). apply NB. exact (wf_ids _ _ (i_wf _ _ _ _ _ _ _ _ I) b a k j Gk E Ik).
      * intros i H. apply in_app_or in H. destruct H as [H|[<-|[]]]; [destruct (C i H) as (b & Kb & Ib); exists b; split; [now apply KS|auto]|].
        exists a. split; [unfold known; rewrite ST, Nat.eqb_refl; discriminate|]. apply ID. now exists j.
  - rewrite G, Nat.eqb_refl. reflexivity.
  - rewrite ST, Nat.eqb_refl. reflexivity.
  - intros b N. rewrite G, ST, (proj2 (Nat.eqb_neq a b)) by congruence. auto.
  - exact ID.
Qed.
Lemma mark_ok s X Kp P a j r : Inv s X Kp P -> status (checked s) a = Some false -> getJob s a = Some j -> res j = Some r -> matches s r (fresh d (jobs (jid j))) ->
  Inv (setChecked s (mark (checked s) a)) X Kp P.
Proof.
  intros I SF E R M. set (s' := setChecked s _).
  assert (ST : forall b, status (checked s') b = if a =? b then Some true else status (checked s) b).
  { intros b. cbn [checked s' setChecked]. rewrite status_mark, SF. reflexivity. }
  assert (KK : forall b, known s' b <-> known s b).
  { intros b. unfold known. rewrite ST. destruct (Nat.eqb_spec a b) as [<-|N]; [|tauto]. split; intros; congruence. }
  split; [exact (wf_same s s' X eq_refl (i_wf _ _ _ _ _ _ _ _ I))|exact (i_kp _ _ _ _ _ _ _ _ I)| | | |  |exact (i_ids _ _ _ _ _ _ _ _ I)|].
  - intros b H. rewrite KK in H. destruct (i_anchor _ _ _ _ _ _ _ _ I b H) as [?|(c & k & Kc & Gc & Rc)]; [now left|right]. exists c, k. rewrite KK. auto.
  - intros b k c Kb Gk Rk. rewrite KK in *. exact (i_closed _ _ _ _ _ _ _ _ I b k c Kb Gk Rk).
  - intros b. rewrite ST. destruct (Nat.eqb_spec a b) as [<-|N]; [intros _; exists j, r; auto|]. apply (i_true _ _ _ _ _ _ _ _ I).
  - intros b k x Gk Rk. rewrite ST. destruct (Nat.eqb_spec a b) as [<-|N]; [discriminate|]. exact (i_hist _ _ _ _ _ _ _ _ I b k x Gk Rk).
  - destruct (i_cooked _ _ _ _ _ _ _ _ I) as (N & C). split; [exact N|]. intros i H. destruct (C i H) as (b & Kb & Ib). exists b. split; [now apply KK|exact Ib].
Qed.

Lemma ensure_ok fuel : forall s X Kp P a, Inv s X Kp P -> In a Kp -> (status (checked s) a = Some false -> just Loop) -> post fuel s X Kp P a (ensureCooked dbg jobs d fuel s a).
Proof.
  induction fuel as [|fuel IH]; intros s X Kp P a I KA JL; [exists []; split; [reflexivity|]; split; [constructor|]; intros i []|].
  cbn [ensureCooked]. destruct (status (checked s) a) as [[|]|] eqn:SA.
  - split; [exact I|]. split; [apply step_refl|exact SA].
  - exact (JL eq_refl).
  - destruct (wf_alive _ _ a (i_wf _ _ _ _ _ _ _ _ I) (i_kp _ _ _ _ _ _ _ _ I a KA)) as (j & E). rewrite E.
    set (must := match res j with None => Ok true | Some r => changed dbg d (deps r) end).
    assert (CH : match must with
      | Ok true => True
      | Ok false => exists r, res j = Some r /\ matches s r (fresh d (jobs (jid j)))
      | Dead w => just w
      | Deep => False end).
    { unfold must. destruct (res j) as [r|] eqn:R; [|exact Logic.I]. destruct (i_hist _ _ _ _ _ _ _ _ I a j r E R SA) as (d0 & Hd & M).
      assert (DL : deps r = looked (fresh d0 (jobs (jid j)))) by (destruct (fresh d0 (jobs (jid j))) as [[[? ?] ?] ?]; apply M).
      pose proof (changed_ok (deps r)) as C. destruct (changed dbg d (deps r)) as [[|]|w|]; auto.
      - exists r. split; [reflexivity|]. rewrite (fresh_same d0); [exact M|exact Hd|]. rewrite <- DL. exact C.
      - destruct C as (-> & HB & p & Hp & Gp). split; [exact HB|]. exists p, (jid j), d0. rewrite <- DL. auto. }
    destruct must as [[|]|w|]; cbn [bind]; [| |exact CH|contradiction].
    + (* cook *)
      cbn [setJob setHeap setChecked heap wish checked deferred cooked].
      destruct (start_ok s X Kp P a j I KA SA E) as (I1 & G1 & S1 & O1 & ID1). set (s1 := mkst (upd _ _ _) _ _ _ _) in *.
      assert (KX : incl Kp (refsOf (res j) ++ X)) by apply (i_kp _ _ _ _ _ _ _ _ I1).
      pose proof (run_ok dbg jobs d D ok Hdated Htidy fuel (ensureCooked dbg jobs d fuel) IH a (refsOf (res j) ++ X) Kp P (jobs (jid j)) [] [] [] s1 _ noResult ([], [], [], []) I1 KX S1 G1 eq_refl) as RUN.
      assert (M0 : matches s1 noResult ([], [], [], [])) by (cbn; auto).
      specialize (RUN M0 ltac:(cbn; tauto) ltac:(constructor) (Htidy (jid j)) (Hwithin _ (i_ids _ _ _ _ _ _ _ _ I a j E)) (fun h => h (jid j)) (fun h => h (jid j))).
      destruct (run d (ensureCooked dbg jobs d fuel) a (jobs (jid j)) [] s1) as [s2|w|]; cbn [bind]; [|exact RUN|].
      2: { destruct RUN as (l & LE & ND & HL). exists (jid j :: l). split; [cbn; congruence|].
           assert (KS : forall b, known s b -> b <> a /\ known s1 b). { intros b H. assert (N : b <> a) by (intros ->; unfold known in H; congruence). split; [exact N|]. unfold known. rewrite (proj2 (O1 b N)). exact H. }
           split.
           - constructor; [|exact ND]. intros H. destruct (HL _ H) as (_ & U). apply (U a); [unfold known; congruence|]. apply ID1. now exists j.
           - intros i [<-|H]; [split; [exact (i_ids _ _ _ _ _ _ _ _ I a j E)|]|split; [apply HL, H|]].
             + intros b Kb (k & Gk & Ik). destruct (KS b Kb) as (N & _). apply N. exact (wf_ids _ _ (i_wf _ _ _ _ _ _ _ _ I) b a k j Gk E Ik).
             + intros b Kb Ib. destruct (HL _ H) as (_ & U). apply (U b); [apply KS, Kb|now apply ID1]. }
      destruct RUN as (I2 & T2 & S2 & j2 & r2 & G2 & IJ2 & R2 & M2). cbn [jid] in IJ2.
      destruct (drop_inv jobs d D ok s2 (refsOf (res j)) X Kp P I2 (i_kp _ _ _ _ _ _ _ _ I)) as (s3 & -> & I3 & T3 & EC3 & ED3 & EK3). cbn [bind].
      assert (S3 : status (checked s3) a = Some false) by congruence. rewrite S3. cbn [bind].
      assert (T : Step (eq a) X s1 s3). { eapply step_trans; [eapply step_weaken; [| |exact T2]; auto; apply incl_appr, incl_refl|]. eapply step_weaken; [| |exact (T3 (eq a))]; auto using incl_refl. }
      assert (K2 : known s2 a) by (unfold known; congruence).
      destruct (t_known _ _ _ _ (T3 (fun _ => False)) a j2 K2 G2) as (j3 & G3 & IJ3 & _ & R3). specialize (R3 ltac:(tauto)).
      assert (M3 : matches s3 r2 (fresh d (jobs (jid j3)))).
      { rewrite IJ3, IJ2. assert (EO : oapp ([], [], [], []) (fresh d (jobs (jid j))) = fresh d (jobs (jid j))) by (destruct (fresh d (jobs (jid j))) as [[[? ?] ?] ?]; reflexivity). rewrite EO in M2.
        eapply matches_carry; [|exact M2]. intros b i Hb. apply (t_refs _ _ _ _ (T3 (fun _ => False)) a j2); [exact K2|exact G2|]. rewrite R2. exact Hb. }
      pose proof (mark_ok s3 X Kp P a j3 r2 I3 S3 G3 ltac:(congruence) M3) as I4. cbn. split; [exact I4|]. split; [|rewrite status_mark, Nat.eqb_refl, S3; reflexivity].
      assert (KN : forall b, known s b -> b <> a) by (intros b H ->; unfold known in H; congruence).
      assert (K1 : forall b, known s b -> known s1 b). { intros b H. unfold known. rewrite (proj2 (O1 b (KN b H))). exact H. }
      split.
      * intros b i Hb Hi. exact (t_x _ _ _ _ T b i Hb (ID1 b i Hi)).
      * intros b k Kb Gk. destruct (O1 b (KN b Kb)) as (OG & _). rewrite <- OG in Gk. destruct (t_known _ _ _ _ T b k (K1 b Kb) Gk) as (k' & Gk' & Ik & Rk & Ek). exists k'. split; [exact Gk'|]. split; [exact Ik|]. split; [exact Rk|]. intros _. apply Ek. intros ->. exact (KN b Kb eq_refl).
      * intros b k c i Kb Gk Hc Hi. destruct (O1 b (KN b Kb)) as (OG & _). rewrite <- OG in Gk. exact (t_refs _ _ _ _ T b k c i (K1 b Kb) Gk Hc (ID1 c i Hi)).
      * intros b x Hb. assert (NB : b <> a) by congruence. cbn. rewrite status_mark, (proj2 (Nat.eqb_neq a b)) by congruence. apply (t_status _ _ _ _ T). rewrite (proj2 (O1 b NB)). exact Hb.
      * intros b. cbn. rewrite status_mark. destruct (Nat.eqb_spec a b) as [<-|N]; [rewrite S3; discriminate|]. intros H. apply (t_false _ _ _ _ T) in H. rewrite (proj2 (O1 b ltac:(congruence))) in H. exact H.
    + (* up to date *)
      destruct CH as (r & R & M). cbn [setChecked setDeferred checked heap wish deferred cooked]. rewrite status_app, SA, Nat.eqb_refl.
      set (s' := mkst (heap s) (wish s) (mark (checked s ++ [(a, false)]) a) (fold_left defer (refsOf (res j)) (deferred s)) (cooked s)).
      change (post (S fuel) s X Kp P a (Ok s')).
      assert (ST : forall b, status (checked s') b = if a =? b then Some true else status (checked s) b).
      { intros b. cbn [checked s']. rewrite status_mark, !status_app, SA, Nat.eqb_refl. destruct (Nat.eqb_spec a b) as [<-|N]; [reflexivity|]. now destruct (status (checked s) b). }
      assert (DI : forall x, In x (deferred s') <-> In x (deferred s) \/ In x (refsOf (res j))) by (intros x; apply defers_in).
      assert (KK : forall b, known s' b <-> known s b \/ b = a). { intros b. unfold known. rewrite ST. destruct (Nat.eqb_spec a b) as [<-|N]; [split; [auto|discriminate]|]. split; [auto|]. intros [?|?]; [assumption|congruence]. }
      cbn. split; [|split; [|rewrite ST, Nat.eqb_refl; reflexivity]].
      * split; [exact (wf_same s s' X eq_refl (i_wf _ _ _ _ _ _ _ _ I))|exact (i_kp _ _ _ _ _ _ _ _ I)| | | |  |exact (i_ids _ _ _ _ _ _ _ _ I)|].
        -- intros b H. rewrite KK, DI in H.
           assert (Q : known s b \/ In b (deferred s) -> In b Kp \/ exists c k, known s' c /\ getJob s' c = Some k /\ In b (refsOf (res k))).
           { intros Hb. destruct (i_anchor _ _ _ _ _ _ _ _ I b Hb) as [?|(c & k & Kc & Gc & Rc)]; [now left|right]. exists c, k. rewrite KK. auto. }
           destruct H as [[H| ->]|[H|H]]; auto. right. exists a, j. rewrite KK. auto.
        -- intros b k c Kb Gk Rk. rewrite KK, DI in *. destruct Kb as [Kb| ->]; [destruct (i_closed _ _ _ _ _ _ _ _ I b k c Kb Gk Rk) as [?|[?|?]]; auto|].
           change (getJob s' a) with (getJob s a) in Gk. assert (k = j) by congruence. subst k. auto.
        -- intros b. rewrite ST. destruct (Nat.eqb_spec a b) as [<-|N]; [intros _; exists j, r; auto|]. apply (i_true _ _ _ _ _ _ _ _ I).
        -- intros b k x Gk Rk. rewrite ST. destruct (Nat.eqb_spec a b) as [<-|N]; [discriminate|]. exact (i_hist _ _ _ _ _ _ _ _ I b k x Gk Rk).
        -- destruct (i_cooked _ _ _ _ _ _ _ _ I) as (N & C). split; [exact N|]. intros i H. destruct (C i H) as (b & Kb & Ib). exists b. split; [apply KK; auto|exact Ib].
      * split; auto.
        -- intros b k Kb Gk. exists k. auto using incl_refl.
        -- intros b x Hb. rewrite ST, (proj2 (Nat.eqb_neq a b)) by congruence. exact Hb.
        -- intros b. rewrite ST. destruct (Nat.eqb_spec a b) as [<-|N]; [discriminate|auto].
Qed.

(** No job is being cooked. *)
Definition calm (s : st) : Prop := forall a, status (checked s) a <> Some false.
Lemma calm_step E X s s' : Step E X s s' -> calm s -> calm s'.
Proof. intros T C a H. exact (C a (t_false _ _ _ _ T a H)). Qed.
Lemma known_true s a : calm s -> known s a -> status (checked s) a = Some true.
Proof. intros C K. specialize (C a). unfold known in K. destruct (status (checked s) a) as [[|]|]; congruence. Qed.

Lemma ensureAll_ok fuel l : forall s X Kp, Inv s X Kp l -> incl l Kp -> calm s ->
  match ensureAll dbg jobs d fuel s l with
  | Ok s' => Inv s' X Kp [] /\ Step (fun _ => False) X s s' /\ calm s' /\ (forall a, In a l -> known s' a)
  | Dead w => just w
  | Deep => tower ok s fuel
  end.
Proof.
  induction l as [|a l IH]; intros s X Kp I K C; cbn [ensureAll].
  - split; [exact I|]. split; [apply step_refl|]. split; [exact C|intros a []].
  - pose proof (ensure_ok fuel s X Kp (a :: l) a I (K a (or_introl eq_refl)) (fun h => match C a h with end)) as H.
    destruct (ensureCooked dbg jobs d fuel s a) as [s1|w|]; cbn [bind]; [|exact H|exact H]. destruct H as (I1 & T1 & S1).
    assert (I1' : Inv s1 X Kp l). { eapply inv_p; [exact I1|]. intros b [<-|Hb]; [|now left]. right. left. unfold known. congruence. }
    specialize (IH s1 X Kp I1' (fun x h => K x (or_intror h)) (calm_step _ _ _ _ T1 C)). destruct (ensureAll dbg jobs d fuel s1 l) as [s2|w|]; [|exact IH|exact (tower_step ok _ _ _ _ _ T1 IH)].
    destruct IH as (I2 & T2 & C2 & K2). split; [exact I2|]. split; [eapply step_trans; eauto|]. split; [exact C2|]. intros b [<-|Hb]; [|auto]. eapply step_known; [exact T2|]. unfold known. congruence.
Qed.
Lemma ensureAll_known fuel l s : (forall a, In a l -> status (checked s) a = Some true) -> ensureAll dbg jobs d (S fuel) s l = Ok s.
Proof. induction l as [|a l IH]; intros H; cbn [ensureAll ensureCooked]; [reflexivity|]. rewrite (H a (or_introl eq_refl)). cbn [bind]. apply IH. intros b Hb. apply H. now right. Qed.
Lemma known_dec s l : (forall a, In a l -> known s a) \/ exists a, In a l /\ ~ known s a.
Proof.
  induction l as [|a l IH]; [left; intros a []|]. destruct IH as [IH|(b & Hb & N)]; [|right; exists b; split; [now right|exact N]].
  unfold known in *. destruct (status (checked s) a) as [x|] eqn:E.
  - left. intros b [<-|Hb]; [congruence|auto].
  - right. exists a. split; [now left|]. congruence.
Qed.
Lemma incAll_ok l : forall s X Kp P, Inv s X Kp P -> (forall a, In a l -> alive s a) -> exists s', incAll s l = Ok s' /\ Inv s' (rev l ++ X) Kp P /\ sameJobs s s'.
Proof.
  induction l as [|a l IH]; intros s X Kp P I A; cbn [incAll].
  - exists s. split; [reflexivity|]. split; [exact I|]. split; [|auto]. intros b. destruct (getJob s b); auto.
  - destruct (inc_ok jobs ok s X a (i_wf _ _ _ _ _ _ _ _ I) (A a (or_introl eq_refl))) as (s1 & -> & W & S & _). cbn [bind].
    assert (I1 : Inv s1 (a :: X) Kp P). { apply (inv_same jobs d D ok s s1 X); auto. intros x Hx. right. now apply (i_kp _ _ _ _ _ _ _ _ I). }
    destruct (IH s1 (a :: X) Kp P I1) as (s2 & E2 & I2 & S2).
    { intros b Hb. destruct (A b (or_intror Hb)) as (k & G). destruct (same_get jobs ok _ _ _ _ S G) as (k' & G' & _). now exists k'. }
    exists s2. split; [exact E2|]. cbn [rev]. rewrite <- app_assoc. split; [exact I2|].
    destruct S as (SA & SB & SC & SD). destruct S2 as (SA2 & SB2 & SC2 & SD2). split; [|split; [congruence|split; congruence]].
    intros b. specialize (SA b). specialize (SA2 b). destruct (getJob s b), (getJob s1 b), (getJob s2 b); try contradiction; auto. destruct SA, SA2. split; congruence.
Qed.
Lemma cookDeferred_ok fuel : forall s X Kp, Inv s X Kp [] -> calm s ->
  match cookDeferred dbg jobs order d fuel s with
  | Ok s' => Inv s' X Kp [] /\ Step (fun _ => False) X s s' /\ calm s' /\ deferred s' = []
  | Dead w => just w
  | Deep => tower ok s fuel
  end.
Proof.
  induction fuel as [|fuel IH]; intros s X Kp I C.
  - cbn. destruct (deferred s) eqn:ED; [auto using step_refl|]. exists []. split; [reflexivity|]. split; [constructor|]. intros i [].
  - cbn [cookDeferred]. destruct (deferred s) as [|x0 l0] eqn:ED; [auto using step_refl|]. rewrite <- ED in *. clear ED x0 l0.
    set (l := order (deferred s)). assert (HL : forall a, In a l <-> In a (deferred s)). { intros a. split; apply Permutation_in; [apply Horder|apply Permutation_sym, Horder]. }
    destruct (incAll_ok l s X Kp [] I) as (s1 & -> & I1 & SJ). { intros a Ha. apply (inv_alive jobs d D ok s X Kp [] a I). right. now apply HL. }
    cbn [bind]. pose proof (step_same jobs ok (fun _ => False) X s s1 SJ) as T1. destruct (SJ) as (_ & EC & ED & EK).
    assert (I2 : Inv (setDeferred s1 []) (l ++ X) (l ++ Kp) l).
    { split; [| | | |exact (i_true _ _ _ _ _ _ _ _ I1)|exact (i_hist _ _ _ _ _ _ _ _ I1)|exact (i_ids _ _ _ _ _ _ _ _ I1)|exact (i_cooked _ _ _ _ _ _ _ _ I1)].
      - eapply wf_perm; [exact (wf_same s1 (setDeferred s1 []) _ eq_refl (i_wf _ _ _ _ _ _ _ _ I1))|]. intros a. rewrite !occ_app. f_equal. apply occ_perm, Permutation_sym, Permutation_rev.
      - apply incl_app; [apply incl_appl, incl_refl|apply incl_appr, (i_kp _ _ _ _ _ _ _ _ I)].
      - intros a [H|[]]. destruct (i_anchor _ _ _ _ _ _ _ _ I1 a (or_introl H)) as [?|?]; [left; apply in_or_app; now right|now right].
      - intros b k c Kb Gk Rk. destruct (i_closed _ _ _ _ _ _ _ _ I1 b k c Kb Gk Rk) as [?|[H|[]]]; [now left|]. right. right. rewrite ED in H. now apply HL. }
    assert (C2 : calm (setDeferred s1 [])) by (intros a; cbn; rewrite EC; apply C).
    pose proof (ensureAll_ok (S fuel) l (setDeferred s1 []) _ _ I2 (incl_appl _ (incl_refl l)) C2) as H.
    destruct (ensureAll dbg jobs d (S fuel) (setDeferred s1 []) l) as [s3|w|] eqn:EA; cbn [bind]; [|exact H|destruct H as (k & K1 & K2 & K3); apply (tower_step ok _ _ _ _ _ T1); exists k; auto]. destruct H as (I3 & T3 & C3 & K3).
    assert (T03 : Step (fun _ => False) X s s3).
    { eapply step_trans; [exact T1|]. apply (step_weaken (fun _ => False) (fun _ => False) (l ++ X)); [auto|apply incl_appr, incl_refl|].
      destruct T3 as [A B F G H']. split; [exact A|exact B|exact F|exact G|exact H']. }
    assert (I3' : Inv s3 (l ++ X) Kp []).
    { apply (inv_unkp jobs d D ok s3 (l ++ X) Kp (l ++ Kp)); [exact I3|intros x Hx; apply in_or_app; right; now apply (i_kp _ _ _ _ _ _ _ _ I)|].
      intros a Ha. apply in_app_or in Ha. destruct Ha as [Ha|Ha]; [|now left]. apply HL in Ha. destruct (i_anchor _ _ _ _ _ _ _ _ I a (or_intror Ha)) as [?|(b & k & Kb & Gk & Rk)]; [now left|right].
      destruct (t_known _ _ _ _ T03 b k Kb Gk) as (k' & Gk' & _ & RR & _). exists b, k'. split; [exact (step_known _ _ _ _ _ T03 Kb)|]. auto. }
    destruct (drop_inv jobs d D ok s3 l X Kp [] I3' (i_kp _ _ _ _ _ _ _ _ I)) as (s4 & -> & I4 & T4 & EC4 & ED4 & _). cbn [bind].
    pose proof (IH s4 X Kp I4 (calm_step _ _ _ _ (T4 (fun _ => False)) C3)) as H. destruct (cookDeferred dbg jobs order d fuel s4) as [s5|w|] eqn:EF; [|exact H|].
    2: { assert (T04 : Step (fun _ => False) X s s4) by (eapply step_trans; [exact T03|exact (T4 (fun _ => False))]).
         destruct (known_dec s l) as [FA|EX].
         - exfalso. rewrite ensureAll_known in EA by (intros a Ha; cbn; rewrite EC; apply known_true; auto). injection EA as <-. cbn in ED4. destruct fuel; cbn in EF; rewrite ED4 in EF; discriminate.
         - destruct EX as (a & Ha & NK). destruct H as (k & LE & ND & HK). assert (AL : alive s a) by (apply (inv_alive jobs d D ok s X Kp [] a I); right; now apply HL). destruct AL as (j & G).
           assert (IA : idOf s4 a (jid j)).
           { assert (I3a : idOf s3 a (jid j)).
             { apply (t_x _ _ _ _ T3); [apply in_or_app; now left|]. destruct (same_get jobs ok _ _ _ _ SJ G) as (j1 & G1 & IJ1 & _). exists j1. auto. }
             destruct I3a as (j3 & G3 & IJ3). destruct (t_known _ _ _ _ (T4 (fun _ => False)) a j3 (K3 a Ha) G3) as (j4 & G4 & IJ4 & _). exists j4. split; [exact G4|]. congruence. }
           exists (jid j :: k). split; [cbn; congruence|]. split.
           + constructor; [|exact ND]. intros H. destruct (HK _ H) as (_ & U). apply (U a); [|exact IA]. eapply step_known; [exact (T4 (fun _ => False))|]. auto.
           + intros i [<-|H]; [split; [exact (i_ids _ _ _ _ _ _ _ _ I a j G)|]|split; [apply HK, H|eapply unknown_step; [exact T04|apply HK, H]]].
             intros b Kb (k' & Gk & Ik). assert (b = a) by exact (wf_ids _ _ (i_wf _ _ _ _ _ _ _ _ I) b a k' j Gk G Ik). subst b. exact (NK Kb). }
    destruct H as (I5 & T5 & C5 & D5). split; [exact I5|]. split; [eapply step_trans; [exact T03|]; eapply step_trans; [exact (T4 (fun _ => False))|exact T5]|]. auto.
Qed.

Lemma commands_ok fuel R cs : forall s held ids, Forall keeping cs -> (forall i, In i (asked cs) -> ok i) -> Inv s (held ++ R) held [] -> calm s -> (forall a, In a held -> known s a) -> Forall2 (idOf s) held ids ->
  match commands dbg jobs order d fuel s held cs with
  | Ok (s', held') => Inv s' (held' ++ R) held' [] /\ calm s' /\ (forall a, In a held' -> known s' a) /\ Forall2 (idOf s') held' (ids ++ asked cs) /\ (last cs (Cook 0) = Deferred -> deferred s' = [])
  | Dead w => just w
  | Deep => tower ok s fuel
  end.
Proof.
  induction cs as [|c cs IH]; intros s held ids KE OK I C KN F2; cbn [commands].
  - rewrite app_nil_r. repeat split; auto; try apply I. discriminate.
  - inversion KE as [|c' cs' KC KE']; subst c' cs'.
    assert (LAST : cs <> [] -> last (c :: cs) (Cook 0) = last cs (Cook 0)) by (destruct cs; [congruence|reflexivity]).
    destruct c as [i|i|i|]; cbn in KC; try contradiction.
    + destruct (acquire_ok jobs d D ok s i _ _ _ I (OK i (or_introl eq_refl))) as (s1 & a & -> & I1 & T1 & IA & EC & ED & EK). cbn [bind].
      assert (I1' : Inv s1 ((held ++ [a]) ++ R) (held ++ [a]) []).
      { apply (inv_perm jobs d D ok s1 (a :: held ++ R) _ (a :: held)).
        - apply (inv_kp _ _ _ _ _ _ held); [exact I1|apply incl_tl, incl_refl|]. intros x [<-|Hx]; [now left|right; apply in_or_app; now left].
        - intros b. rewrite occ_cons, !occ_app, occ_cons. destruct (a =? b); cbn; lia.
        - intros b. rewrite in_app_iff. cbn. tauto. }
      pose proof (calm_step _ _ _ _ (T1 (fun _ => False)) C) as C1.
      pose proof (ensure_ok fuel s1 _ _ _ a I1' ltac:(apply in_or_app; right; now left) (fun h => match C1 a h with end)) as H.
      destruct (ensureCooked dbg jobs d fuel s1 a) as [s2|w|]; cbn [bind]; [|exact H|exact (tower_step ok _ _ _ _ _ (T1 (fun _ => False)) H)]. destruct H as (I2 & T2 & S2).
      assert (KN2 : forall b, In b (held ++ [a]) -> known s2 b).
      { intros b Hb. apply in_app_or in Hb. destruct Hb as [Hb|[<-|[]]]; [|unfold known; congruence]. eapply step_known; [exact T2|]. eapply step_known; [exact (T1 (fun _ => False))|]. auto. }
      assert (F2' : Forall2 (idOf s2) (held ++ [a]) (ids ++ [i])).
      { apply Forall2_app; [|constructor; [|constructor]].
        - eapply Forall2_imp_in; [|exact F2]. intros b k Hb Hk. apply (t_x _ _ _ _ T2); [apply in_or_app; left; apply in_or_app; now left|]. apply (t_x _ _ _ _ (T1 (fun _ => False))); [apply in_or_app; now left|exact Hk].
        - apply (t_x _ _ _ _ T2); [apply in_or_app; left; apply in_or_app; right; now left|exact IA]. }
      specialize (IH s2 (held ++ [a]) (ids ++ [i]) KE' (fun k h => OK k (or_intror h)) I2 (calm_step _ _ _ _ T2 C1) KN2 F2').
      destruct (commands dbg jobs order d fuel s2 (held ++ [a]) cs) as [(s3, held3)|w|]; [|exact IH|].
      2: { apply (tower_step ok _ _ _ _ _ T2) in IH. exact (tower_step ok _ _ _ _ _ (T1 (fun _ => False)) IH). }
      destruct IH as (I3 & C3 & K3 & F3 & L3). split; [exact I3|]. split; [exact C3|]. split; [exact K3|].
      rewrite <- app_assoc in F3. split; [exact F3|]. destruct cs; [discriminate|]. rewrite LAST by discriminate. exact L3.
    + pose proof (cookDeferred_ok fuel s _ _ I C) as H. destruct (cookDeferred dbg jobs order d fuel s) as [s1|w|]; cbn [bind]; [|exact H|exact H].
      destruct H as (I1 & T1 & C1 & D1).
      specialize (IH s1 held ids KE' OK I1 C1 (fun a h => step_known _ _ _ _ _ T1 (KN a h))).
      assert (F2' : Forall2 (idOf s1) held ids). { eapply Forall2_imp_in; [|exact F2]. intros b k Hb. apply (t_x _ _ _ _ T1). apply in_or_app. now left. }
      specialize (IH F2'). destruct cs as [|c cs].
      * cbn [commands] in *. destruct IH as (I3 & C3 & K3 & F3 & L3). cbn. auto.
      * destruct (commands dbg jobs order d fuel s1 held (c :: cs)) as [(s3, held3)|w|]; [exact IH|exact IH|exact (tower_step ok _ _ _ _ _ T1 IH)].
Qed.

(** A tracker between sessions. *)
Definition trackerInv (D' : list disk) (tr : tracker) : Prop :=
  forall w d', CookInv.Inv jobs d' D' ok (mkst (theap tr) w [] [] []) (roots tr) [] [].
Definition correct (tr : tracker) (k : id) : Prop :=
  resultOf tr k = Some (let '(ds, rs, os, es) := fresh d (jobs k) in (ds, map Some rs, os, es)).
Lemma session_ok fuel w tr cs : careful cs -> (forall i, In i (asked cs) -> ok i) -> trackerInv D tr ->
  match session dbg jobs order d fuel w tr cs with
  | Ok (tr', log) => trackerInv (d :: D) tr' /\ NoDup log /\ (forall i, In i log -> ok i) /\
      (forall i, In i (asked cs) -> exists a, In a (roots tr') /\ idOf (mkst (theap tr') [] [] [] []) a i) /\ (forall i k, In i (asked cs) -> needs jobs d i k -> correct tr' k)
  | Dead w => just w
  | Deep => exists l, length l = fuel /\ NoDup l /\ forall i, In i l -> ok i
  end.
Proof.
  intros (KE & l & ->) OK TI. unfold session.
  pose proof (commands_ok fuel (roots tr) (l ++ [Deferred]) (mkst (theap tr) w [] [] []) [] [] KE OK (TI w d)) as H.
  specialize (H ltac:(intros a; cbn; discriminate) ltac:(intros a []) ltac:(constructor)).
  destruct (commands dbg jobs order d fuel (mkst (theap tr) w [] [] []) [] (l ++ [Deferred])) as [(s1, held)|x|]; cbn [bind]; [|exact H|destruct H as (k & LE & ND & HK); exists k; split; [exact LE|]; split; [exact ND|]; intros i Hi; apply HK, Hi].
  destruct H as (I1 & C1 & K1 & F1 & L1). rewrite last_last in L1. specialize (L1 eq_refl). cbn [app] in F1.
  assert (I1' : Inv s1 (roots tr ++ held) held []). { eapply inv_perm; [exact I1|intros a; rewrite !occ_app; lia|tauto]. }
  destruct (drop_inv jobs d D ok s1 (roots tr) held held [] I1' (incl_refl held)) as (s2 & -> & I2 & T2 & EC & ED & EK). cbn [bind]. rewrite ED, L1.
  pose proof (calm_step _ _ _ _ (T2 (fun _ => False)) C1) as C2.
  split; [|split; [|split; [|split]]].
  - intros w' d'. split.
    + apply (wf_same s2); [reflexivity|exact (i_wf _ _ _ _ _ _ _ _ I2)].
    + intros x [].
    + intros a [H|[]]. destruct H. reflexivity.
    + intros b j a H. destruct H. reflexivity.
    + intros a. discriminate.
    + intros a j r G R _. change (getJob _ a) with (getJob s2 a) in G. destruct (status (checked s2) a) as [[|]|] eqn:SA.
      * destruct (i_true _ _ _ _ _ _ _ _ I2 a SA) as (j' & r' & G' & R' & M). assert (j' = j) by congruence. subst j'. assert (r' = r) by congruence. subst r'.
        exists d. split; [now left|]. destruct (fresh d (jobs (jid j))) as [[[? ?] ?] ?]. exact M.
      * destruct (C2 a SA).
      * destruct (i_hist _ _ _ _ _ _ _ _ I2 a j r G R SA) as (d0 & Hd & M). exists d0. split; [now right|]. destruct (fresh d0 (jobs (jid j))) as [[[? ?] ?] ?]. exact M.
    + intros a j G. exact (i_ids _ _ _ _ _ _ _ _ I2 a j G).
    + split; [constructor|intros i []].
  - exact (proj1 (i_cooked _ _ _ _ _ _ _ _ I2)).
  - intros i Hi. destruct (proj2 (i_cooked _ _ _ _ _ _ _ _ I2) i Hi) as (a & _ & (j & G & <-)). exact (i_ids _ _ _ _ _ _ _ _ I2 a j G).
  - intros i Hi. destruct (Forall2_in_r _ _ _ _ F1 Hi) as (a & Ha & Ia). exists a. split; [exact Ha|]. exact (t_x _ _ _ _ (T2 (fun _ => False)) a i Ha Ia).
  - intros i k Hi N.
    assert (Q : exists a, status (checked s2) a = Some true /\ idOf s2 a k).
    { induction N as [|x y N IH Hy].
      - destruct (Forall2_in_r _ _ _ _ F1 Hi) as (a & Ha & Ia). exists a. split; [apply known_true; [exact C2|]; eapply step_known; [exact (T2 (fun _ => False))|auto]|].
        apply (t_x _ _ _ _ (T2 (fun _ => False))); auto.
      - destruct IH as (a & SA & (j & G & IJ)). destruct (i_true _ _ _ _ _ _ _ _ I2 a SA) as (j' & r & G' & R & M). assert (j' = j) by congruence. subst j'. rewrite IJ in M.
        destruct (fresh d (jobs x)) as [[[ds rs] os] es]. destruct M as (_ & M & _). destruct (Forall2_in_r _ _ _ _ M Hy) as (b & Hb & Ib). exists b. split; [|exact Ib].
        apply known_true; [exact C2|]. assert (RB : In b (refsOf (res j))) by (rewrite R; exact Hb). assert (KA : known s2 a) by (unfold known; congruence).
        destruct (i_closed _ _ _ _ _ _ _ _ I2 a j b KA G RB) as [?|[H|[]]]; [assumption|]. rewrite ED, L1 in H. destruct H. }
    destruct Q as (a & SA & (j & G & IJ)). destruct (i_true _ _ _ _ _ _ _ _ I2 a SA) as (j' & r & G' & R & M). assert (j' = j) by congruence. subst j'. rewrite IJ in M.
    unfold correct, resultOf. cbn [theap]. destruct (findJob (heap s2) k) as [b|] eqn:F.
    + destruct (findJob_some _ _ _ F) as (j2 & G2 & IJ2). assert (GB : getJob s2 b = Some j2) by (unfold getJob; now rewrite G2).
      assert (b = a) by (apply (wf_ids _ _ (i_wf _ _ _ _ _ _ _ _ I2) b a j2 j GB G); congruence). subst b. rewrite G2. assert (j2 = j) by congruence. subst j2.
      destruct j as [ji jc jr]. cbn in R. subst jr. destruct (fresh d (jobs k)) as [[[ds rs] os] es]. destruct M as (-> & M & -> & ->). do 3 f_equal.
      clear -M. f_equal. induction M as [|b i bs is Hb M IH]; cbn; [reflexivity|]. rewrite IH. f_equal. destruct Hb as (jb & Gb & <-). unfold getJob in Gb. destruct (nth_error (heap s2) b) as [o|]; [|discriminate]. subst o. reflexivity.
    + exfalso. apply (findJob_none _ _ F a j); [now apply getJob_nth|exact IJ].
Qed.
End Session.

Lemma noJobs_ok jobs ok : trackerInv jobs ok [] noJobs.
Proof.
  intros w d. assert (GN : forall a, getJob (mkst [] w [] [] []) a = None) by (intros [|a]; reflexivity).
  split.
  - split; [intros a b j k H; cbn in H; rewrite GN in H; discriminate|]. intros a. cbn [theap roots noJobs]. rewrite GN. reflexivity.
  - intros x [].
  - intros a [H|[]]. destruct H. reflexivity.
  - intros b j a H. destruct H. reflexivity.
  - intros a. discriminate.
  - intros a j r H. cbn in H. rewrite GN in H. discriminate.
  - intros a j H. cbn in H. rewrite GN in H. discriminate.
  - split; [constructor|intros i []].
Qed.
