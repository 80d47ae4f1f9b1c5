(* Proofs about CookModel: what holds at all times during a session. *)
From Coq Require Import Lia ZifyBool ZifyNat Permutation.
From Verif Require Export CookProofs.
Open Scope nat_scope.

Lemma status_app c a x b : status (c ++ [(a, x)]) b = match status c b with Some y => Some y | None => if a =? b then Some x else None end.
Proof. induction c as [|(e, y) c IH]; cbn; [reflexivity|]. destruct (e =? b); [reflexivity|exact IH]. Qed.
Lemma status_mark c a b : status (mark c a) b = if a =? b then (match status c a with Some _ => Some true | None => None end) else status c b.
Proof.
  induction c as [|(e, y) c IH]; cbn; [now destruct (a =? b)|].
  destruct (Nat.eqb_spec e a) as [->|N]; cbn.
  - destruct (a =? b); reflexivity.
  - destruct (Nat.eqb_spec e b) as [->|N2]; [|exact IH]. destruct (Nat.eqb_spec a b); [congruence|reflexivity].
Qed.

Definition idOf (s : st) (a : addr) (i : id) : Prop := exists j, getJob s a = Some j /\ jid j = i.
Definition matches (s : st) (r : result) (o : output) : Prop :=
  let '(ds, rs, os, es) := o in deps r = ds /\ Forall2 (idOf s) (refs r) rs /\ outs r = os /\ errs r = es.
Lemma idOf_alive s a i : idOf s a i -> alive s a.
Proof. intros (j & E & _). now exists j. Qed.
Lemma idOf_unique s a i k : idOf s a i -> idOf s a k -> i = k.
Proof. intros (j & E & <-) (j' & E' & <-). congruence. Qed.
Lemma Forall2_imp_in {A B} (P Q : A -> B -> Prop) l k : (forall a b, In a l -> P a b -> Q a b) -> Forall2 P l k -> Forall2 Q l k.
Proof. intros H F. induction F as [|a b l k Pab F IH]; constructor; [apply H; [now left|exact Pab]|]. apply IH. intros; apply H; [now right|assumption]. Qed.
Lemma matches_carry s s' r o : (forall a i, In a (refs r) -> idOf s a i -> idOf s' a i) -> matches s r o -> matches s' r o.
Proof. intros H. destruct o as [[[ds rs] os] es]. intros (A & B & C & E). repeat split; auto. exact (Forall2_imp_in _ _ _ _ H B). Qed.

Definition known (s : st) (a : addr) : Prop := status (checked s) a <> None.

Section Inv.
Context (jobs : id -> prog) (d : disk) (D : list disk) (ok : id -> Prop).

(** [X]: all references from outside the heap. [Kp]: those of them that stay. [P]: jobs that are about to be cooked. *)
Record Inv (s : st) (X Kp P : list addr) : Prop := mkInv {
  i_wf : WF s X;
  i_kp : incl Kp X;
  i_anchor : forall a, known s a \/ In a (deferred s) -> In a Kp \/ exists b j, known s b /\ getJob s b = Some j /\ In a (refsOf (res j));
  i_closed : forall b j a, known s b -> getJob s b = Some j -> In a (refsOf (res j)) -> known s a \/ In a (deferred s) \/ In a P;
  i_true : forall a, status (checked s) a = Some true -> exists j r, getJob s a = Some j /\ res j = Some r /\ matches s r (fresh d (jobs (jid j)));
  i_hist : forall a j r, getJob s a = Some j -> res j = Some r -> status (checked s) a = None -> exists d0, In d0 D /\ matches s r (fresh d0 (jobs (jid j)));
  i_ids : forall a j, getJob s a = Some j -> ok (jid j);
  i_cooked : NoDup (cooked s) /\ forall i, In i (cooked s) -> exists a, known s a /\ idOf s a i }.

(** From one state to a later one. [E]: the job that is being cooked. *)
Record Step (E : addr -> Prop) (X : list addr) (s s' : st) : Prop := mkStep {
  t_x : forall a i, In a X -> idOf s a i -> idOf s' a i;
  t_known : forall b j, known s b -> getJob s b = Some j ->
    exists j', getJob s' b = Some j' /\ jid j' = jid j /\ incl (refsOf (res j)) (refsOf (res j')) /\ (~ E b -> res j' = res j);
  t_refs : forall b j a i, known s b -> getJob s b = Some j -> In a (refsOf (res j)) -> idOf s a i -> idOf s' a i;
  t_status : forall a x, status (checked s) a = Some x -> status (checked s') a = Some x;
  t_false : forall a, status (checked s') a = Some false -> status (checked s) a = Some false }.

Lemma step_refl E X s : Step E X s s.
Proof. split; auto using incl_refl. intros b j _ H. exists j. auto using incl_refl. Qed.
Lemma step_known E X s t b : Step E X s t -> known s b -> known t b.
Proof. intros T K. unfold known in *. destruct (status (checked s) b) as [x|] eqn:S; [|congruence]. rewrite (t_status _ _ _ _ T _ _ S). discriminate. Qed.
Lemma step_trans E X s t u : Step E X s t -> Step E X t u -> Step E X s u.
Proof.
  intros A B. split.
  - intros a i H I. apply (t_x _ _ _ _ B); [exact H|]. now apply (t_x _ _ _ _ A).
  - intros b j K G. destruct (t_known _ _ _ _ A b j K G) as (j1 & G1 & I1 & R1 & N1).
    destruct (t_known _ _ _ _ B b j1 (step_known _ _ _ _ _ A K) G1) as (j2 & G2 & I2 & R2 & N2).
    exists j2. split; [exact G2|]. split; [congruence|]. split; [eapply incl_tran; eauto|]. intros NE. rewrite (N2 NE). auto.
  - intros b j a i K G H I. destruct (t_known _ _ _ _ A b j K G) as (j1 & G1 & _ & R1 & _).
    apply (t_refs _ _ _ _ B b j1 a i (step_known _ _ _ _ _ A K) G1); [now apply R1|]. eapply (t_refs _ _ _ _ A); eauto.
  - intros a x H. apply (t_status _ _ _ _ B). now apply (t_status _ _ _ _ A).
  - intros a H. apply (t_false _ _ _ _ A). now apply (t_false _ _ _ _ B).
Qed.
Lemma step_weaken (E E' : addr -> Prop) X X' s s' : (forall a, E a -> E' a) -> incl X' X -> Step E X s s' -> Step E' X' s s'.
Proof.
  intros HE HX T. split; try apply T.
  - intros a i H. apply (t_x _ _ _ _ T). now apply HX.
  - intros b j K G. destruct (t_known _ _ _ _ T b j K G) as (j1 & G1 & I1 & R1 & N1). exists j1. repeat split; auto.
Qed.

Lemma inv_alive s X Kp P a : Inv s X Kp P -> known s a \/ In a (deferred s) -> alive s a.
Proof.
  intros I H. destruct (i_anchor _ _ _ _ I a H) as [K|(b & j & _ & G & R)].
  - eapply wf_alive; [apply I|]. now apply (i_kp _ _ _ _ I).
  - eapply wf_ref; eauto. apply I.
Qed.

(** Equal up to counts. *)
Definition sameJobs (s s' : st) : Prop :=
  (forall a, match getJob s a, getJob s' a with Some j, Some j' => jid j' = jid j /\ res j' = res j | None, None => True | _, _ => False end) /\
  checked s' = checked s /\ deferred s' = deferred s /\ cooked s' = cooked s.
Lemma same_get s s' a j : sameJobs s s' -> getJob s a = Some j -> exists j', getJob s' a = Some j' /\ jid j' = jid j /\ res j' = res j.
Proof. intros (H & _) E. specialize (H a). rewrite E in H. destruct (getJob s' a) as [j'|]; [|contradiction]. exists j'. tauto. Qed.
Lemma same_sym s s' : sameJobs s s' -> sameJobs s' s.
Proof. intros (H & A & B & C). split; [|now rewrite A, B, C]. intros a. specialize (H a). destruct (getJob s a), (getJob s' a); try contradiction; auto. destruct H. split; congruence. Qed.
Lemma same_id s s' a i : sameJobs s s' -> idOf s a i -> idOf s' a i.
Proof. intros S (j & E & <-). destruct (same_get _ _ _ _ S E) as (j' & E' & I & _). exists j'. auto. Qed.
Lemma inv_same s s' X X' Kp P : sameJobs s s' -> WF s' X' -> incl Kp X' -> Inv s X Kp P -> Inv s' X' Kp P.
Proof.
  intros S W K I. pose proof (same_sym _ _ S) as S'. destruct (S) as (_ & EC & ED & EK). split; auto.
  - intros a H. unfold known in *. rewrite EC, ED in H. destruct (i_anchor _ _ _ _ I a H) as [?|(b & j & Kb & G & R)]; [now left|right].
    destruct (same_get _ _ _ _ S G) as (j' & G' & _ & R'). exists b, j'. rewrite EC. rewrite R'. auto.
  - intros b j a Kb G R. unfold known in *. rewrite EC, ED in *. destruct (same_get _ _ _ _ S' G) as (j' & G' & _ & R'). rewrite <- R' in R. apply (i_closed _ _ _ _ I b j' a Kb G' R).
  - intros a H. rewrite EC in H. destruct (i_true _ _ _ _ I a H) as (j & r & G & R & M). destruct (same_get _ _ _ _ S G) as (j' & G' & IJ & R').
    exists j', r. split; [exact G'|]. split; [congruence|]. rewrite IJ. eapply matches_carry; [|exact M]. intros; eapply same_id; eauto.
  - intros a j r G R H. rewrite EC in H. destruct (same_get _ _ _ _ S' G) as (j' & G' & IJ & R'). destruct (i_hist _ _ _ _ I a j' r G' ltac:(congruence) H) as (d0 & Hd & M).
    exists d0. split; [exact Hd|]. rewrite <- IJ. eapply matches_carry; [|exact M]. intros; eapply same_id; eauto.
  - intros a j G. destruct (same_get _ _ _ _ S' G) as (j' & G' & IJ & _). rewrite <- IJ. exact (i_ids _ _ _ _ I a j' G').
  - unfold known. rewrite EK, EC. destruct (i_cooked _ _ _ _ I) as (N & C). split; [exact N|]. intros i H. destruct (C i H) as (a & Ka & Ia). exists a. split; [exact Ka|eapply same_id; eauto].
Qed.
Lemma step_same E X s s' : sameJobs s s' -> Step E X s s'.
Proof.
  intros S. destruct (S) as (_ & EC & ED & EK). split; try (rewrite EC; auto; fail).
  - intros a i _. now apply same_id.
  - intros b j K G. destruct (same_get _ _ _ _ S G) as (j' & G' & I & R). exists j'. rewrite R. auto using incl_refl.
  - intros b j a i _ _ _. now apply same_id.
Qed.

(** Dropping references. *)
Lemma drop_inv s l X Kp P : Inv s (l ++ X) Kp P -> incl Kp X -> exists s', dropAll s l = Ok s' /\ Inv s' X Kp P /\ (forall E, Step E X s s') /\
  checked s' = checked s /\ deferred s' = deferred s /\ cooked s' = cooked s.
Proof.
  intros I K. destruct (dropAll_ok s l X (i_wf _ _ _ _ I)) as (s' & D' & W' & S' & KK). exists s'. split; [exact D'|].
  pose proof (sh_jobs _ _ S') as J. destruct (sh_rest _ _ S') as (_ & EC & ED & EK).
  assert (AL : forall a, In a X \/ known s a \/ In a (deferred s) \/ (exists b j, known s b /\ getJob s b = Some j /\ In a (refsOf (res j))) -> alive s' a).
  { apply (KK (fun a => In a X \/ known s a \/ In a (deferred s) \/ (exists b j, known s b /\ getJob s b = Some j /\ In a (refsOf (res j))))).
    assert (Q : forall a, known s a \/ In a (deferred s) -> In a X \/ exists b j, (In b X \/ known s b \/ In b (deferred s) \/ (exists c k, known s c /\ getJob s c = Some k /\ In b (refsOf (res k)))) /\ getJob s b = Some j /\ In a (refsOf (res j))).
    { intros a H. destruct (i_anchor _ _ _ _ I a H) as [Ka|(b & j & Kb & G & R)]; [left; now apply K|right]. exists b, j. auto. }
    intros a [H|[H|[H|(b & j & Kb & G & R)]]]; [now left|apply Q; auto|apply Q; auto|]. right. exists b, j. auto. }
  assert (ID : forall a i, alive s' a -> idOf s a i -> idOf s' a i).
  { intros a i (j' & G') (j & G & <-). destruct (J _ _ G') as (j0 & G0 & I0 & _). exists j'. split; [exact G'|]. congruence. }
  assert (RF : forall a j, getJob s' a = Some j -> forall b i, In b (refsOf (res j)) -> idOf s b i -> idOf s' b i).
  { intros a j G b i H. apply ID. exact (wf_ref _ _ _ _ _ W' G H). }
  assert (KN : forall b j, known s b -> getJob s b = Some j -> exists j', getJob s' b = Some j' /\ jid j' = jid j /\ res j' = res j).
  { intros b j Kb G. destruct (AL b ltac:(auto)) as (j' & G'). destruct (J _ _ G') as (j0 & G0 & I0 & R0). exists j'. repeat split; congruence. }
  split; [|split; [|auto]].
  - split; auto.
    + intros a H. unfold known in *. rewrite EC, ED in H. destruct (i_anchor _ _ _ _ I a H) as [Ka|(b & j & Kb & G & R)]; [now left|right].
      destruct (KN b j Kb G) as (j' & G' & _ & R'). exists b, j'. rewrite EC, R'. auto.
    + intros b j a Kb G R. unfold known in *. rewrite EC, ED in *. destruct (J _ _ G) as (j0 & G0 & _ & R0). rewrite <- R0 in R. exact (i_closed _ _ _ _ I b j0 a Kb G0 R).
    + intros a H. rewrite EC in H. destruct (i_true _ _ _ _ I a H) as (j & r & G & R & M). destruct (KN a j ltac:(unfold known; congruence) G) as (j' & G' & I' & R').
      exists j', r. split; [exact G'|]. split; [congruence|]. rewrite I'. eapply matches_carry; [|exact M]. intros b i Hb. apply (RF a j' G'). rewrite R', R. exact Hb.
    + intros a j r G R H. rewrite EC in H. destruct (J _ _ G) as (j0 & G0 & I0 & R0). destruct (i_hist _ _ _ _ I a j0 r G0 ltac:(congruence) H) as (d0 & Hd & M). exists d0. split; [exact Hd|].
      rewrite <- I0. eapply matches_carry; [|exact M]. intros b i Hb. apply (RF a j G). rewrite R. exact Hb.
    + intros a j G. destruct (J _ _ G) as (j0 & G0 & I0 & _). rewrite <- I0. exact (i_ids _ _ _ _ I a j0 G0).
    + unfold known. rewrite EK, EC. destruct (i_cooked _ _ _ _ I) as (N & C). split; [exact N|]. intros i H. destruct (C i H) as (a & Ka & Ia). exists a. split; [exact Ka|]. apply ID; [|exact Ia]. apply AL. auto.
  - intros E. split; try (rewrite EC; auto; fail).
    + intros a i H. apply ID. apply AL. auto.
    + intros b j Kb G. destruct (KN b j Kb G) as (j' & G' & I' & R'). exists j'. rewrite R'. auto using incl_refl.
    + intros b j a i Kb G H. apply ID. apply AL. right. right. right. exists b, j. auto.
Qed.

(** Taking references. *)
Lemma inc_ok s X a : WF s X -> alive s a -> exists s', inc s a = Ok s' /\ WF s' (a :: X) /\ sameJobs s s' /\ checked s' = checked s.
Proof.
  intros W (j & E). unfold inc. rewrite E. eexists. split; [reflexivity|]. pose proof (getJob_lt _ _ _ E) as L.
  assert (G : forall b, getJob (setJob s a (Some (mkjob (jid j) (S (count j)) (res j)))) b = if a =? b then Some (mkjob (jid j) (S (count j)) (res j)) else getJob s b) by (intros; now apply getJob_set).
  split; [|split].
  - split.
    + intros b c k1 k2. rewrite !G. intros E1 E2 IE.
      assert (Q : forall b k, (if a =? b then Some (mkjob (jid j) (S (count j)) (res j)) else getJob s b) = Some k -> exists k', getJob s b = Some k' /\ jid k' = jid k).
      { intros b' k H. destruct (Nat.eqb_spec a b') as [<-|]; [injection H as <-; now exists j|now exists k]. }
      destruct (Q _ _ E1) as (k1' & G1 & I1). destruct (Q _ _ E2) as (k2' & G2 & I2). apply (wf_ids _ _ W b c k1' k2' G1 G2). congruence.
    + intros b. rewrite G. pose proof (inner_set s a j (Some (mkjob (jid j) (S (count j)) (res j))) b E) as I. cbn [res] in I.
      pose proof (wf_count _ _ W b) as C. rewrite occ_cons. destruct (Nat.eqb_spec a b) as [<-|N]; [rewrite E in C; cbn [count]; lia|]. destruct (getJob s b); lia.
  - split; [|auto]. intros b. rewrite G. destruct (Nat.eqb_spec a b) as [<-|N]; [rewrite E; auto|]. destruct (getJob s b); auto.
  - reflexivity.
Qed.
Lemma findJob_some h i a : findJob h i = Some a -> exists j, nth_error h a = Some (Some j) /\ jid j = i.
Proof.
  revert a. induction h as [|[j|] h IH]; cbn; intros a H; [discriminate| |].
  - destruct (Nat.eqb_spec (jid j) i) as [E|N]; [injection H as <-; now exists j|].
    destruct (findJob h i) as [b|]; [|discriminate]. injection H as <-. cbn. now apply IH.
  - destruct (findJob h i) as [b|]; [|discriminate]. injection H as <-. cbn. now apply IH.
Qed.
Lemma findJob_none h i : findJob h i = None -> forall a j, nth_error h a = Some (Some j) -> jid j <> i.
Proof.
  induction h as [|[j|] h IH]; cbn; intros H [|a] k; cbn; try discriminate.
  - destruct (Nat.eqb_spec (jid j) i); [discriminate|]. intros [= <-]. assumption.
  - destruct (Nat.eqb_spec (jid j) i); [discriminate|]. intros E. apply (IH ltac:(destruct (findJob h i); [discriminate|reflexivity]) a k E).
  - intros E. apply (IH ltac:(destruct (findJob h i); [discriminate|reflexivity]) a k E).
Qed.
Lemma inner_none s a o b : nth_error (heap s) a = Some None -> refsOf (res o) = [] -> inner (upd (heap s) a (Some o)) b = inner (heap s) b.
Proof. intros E R. unfold inner. pose proof (total_upd (fun o => match o with Some j => occ b (refsOf (res j)) | None => 0 end) _ _ _ (Some o) E) as T. cbn in T. rewrite R in T. cbn in T. lia. Qed.
(** A new job: every other one is as before. *)
Lemma create_ok s i X : WF s X -> (forall a j, getJob s a = Some j -> jid j <> i) ->
  let '(s', a) := create s i in getJob s a = None /\ getJob s' a = Some (mkjob i 1 None) /\ (forall b, b <> a -> getJob s' b = getJob s b) /\
    WF s' (a :: X) /\ checked s' = checked s /\ deferred s' = deferred s /\ cooked s' = cooked s.
Proof.
  intros W N. unfold create. set (w := hd _ _).
  assert (CASE : forall h a, nth_error (heap s) a = Some None /\ h = upd (heap s) a (Some (mkjob i 1 None)) \/ a = length (heap s) /\ h = heap s ++ [Some (mkjob i 1 None)] ->
    let s' := mkst h (tl (wish s)) (checked s) (deferred s) (cooked s) in
    getJob s a = None /\ getJob s' a = Some (mkjob i 1 None) /\ (forall b, b <> a -> getJob s' b = getJob s b) /\ WF s' (a :: X)).
  { intros h a H s'.
    assert (G0 : getJob s a = None). { unfold getJob. destruct H as [(E & _)|(-> & _)]; [now rewrite E|]. now rewrite (proj2 (nth_error_None _ _) (le_n _)). }
    assert (G1 : getJob s' a = Some (mkjob i 1 None)).
    { unfold getJob, s'. cbn. destruct H as [(E & ->)|(-> & ->)]; [rewrite nth_upd_eq; [reflexivity|]; apply nth_error_Some; congruence|]. rewrite nth_error_app2 by lia. now rewrite Nat.sub_diag. }
    assert (G2 : forall b, b <> a -> getJob s' b = getJob s b).
    { intros b Nb. unfold getJob, s'. cbn. destruct H as [(E & ->)|(-> & ->)]; [now rewrite nth_upd_ne by congruence|].
      destruct (Nat.lt_ge_cases b (length (heap s))) as [L|L]; [now rewrite nth_error_app1|]. rewrite !(proj2 (nth_error_None _ _)); [reflexivity|lia|rewrite app_length; cbn; lia]. }
    assert (IN : forall b, inner h b = inner (heap s) b).
    { intros b. destruct H as [(E & ->)|(-> & ->)]; [now apply inner_none|]. unfold inner. rewrite total_app. cbn. lia. }
    split; [exact G0|]. split; [exact G1|]. split; [exact G2|]. split.
    - intros b c k1 k2 E1 E2 IE. destruct (Nat.eq_dec b a) as [->|Nb]; destruct (Nat.eq_dec c a) as [->|Nc]; auto.
      + rewrite G1 in E1. injection E1 as <-. rewrite (G2 c Nc) in E2. cbn in IE. destruct (N c k2 E2). congruence.
      + rewrite G1 in E2. injection E2 as <-. rewrite (G2 b Nb) in E1. cbn in IE. destruct (N b k1 E1). congruence.
      + rewrite (G2 b Nb) in E1. rewrite (G2 c Nc) in E2. apply (wf_ids _ _ W b c k1 k2 E1 E2 IE).
    - intros b. cbn [heap s']. rewrite IN, occ_cons. pose proof (wf_count _ _ W b) as C. destruct (Nat.eqb_spec a b) as [<-|Nb].
      + rewrite G1. rewrite G0 in C. cbn [count]. lia.
      + rewrite (G2 b ltac:(congruence)). destruct (getJob s b); lia. }
  destruct (nth_error (heap s) w) as [[j|]|] eqn:E.
  - destruct (CASE _ (length (heap s)) (or_intror (conj eq_refl eq_refl))) as (A & B & C & F). repeat split; auto; try apply F.
  - destruct (CASE _ w (or_introl (conj E eq_refl))) as (A & B & C & F). repeat split; auto; try apply F.
  - destruct (CASE _ (length (heap s)) (or_intror (conj eq_refl eq_refl))) as (A & B & C & F). repeat split; auto; try apply F.
Qed.

Lemma acquire_ok s i X Kp P : Inv s X Kp P -> ok i -> exists s' a, acquire s i = Ok (s', a) /\ Inv s' (a :: X) Kp P /\ (forall E, Step E X s s') /\ idOf s' a i /\
  checked s' = checked s /\ deferred s' = deferred s /\ cooked s' = cooked s.
Proof.
  intros I OK. unfold acquire. destruct (findJob (heap s) i) as [a|] eqn:F.
  - apply findJob_some in F. destruct F as (j & F & IJ). assert (E : getJob s a = Some j) by (unfold getJob; now rewrite F).
    destruct (inc_ok s X a (i_wf _ _ _ _ I) (ex_intro _ j E)) as (s' & -> & W & S & EC). exists s', a. cbn. split; [reflexivity|].
    split; [apply (inv_same s s' X); auto; intros x Hx; right; now apply (i_kp _ _ _ _ I)|]. split; [intros E0; now apply step_same|].
    split; [apply (same_id s); auto; now exists j|]. split; [exact EC|]. destruct S as (_ & _ & A & B). auto.
  - pose proof (create_ok s i X (i_wf _ _ _ _ I)) as C. destruct (create s i) as (s', a) eqn:CR. exists s', a. split; [reflexivity|].
    destruct C as (G0 & G1 & G2 & W & EC & ED & EK).
    { intros a' j E. apply (findJob_none _ _ F a'). now apply getJob_nth. }
    assert (NA : forall b j, getJob s b = Some j -> getJob s' b = Some j). { intros b j E. rewrite G2; [exact E|]. intros ->. congruence. }
    assert (ID : forall b k, idOf s b k -> idOf s' b k). { intros b k (j & E & H). exists j. auto. }
    assert (NK : ~ (known s a \/ In a (deferred s))). { intros H. destruct (inv_alive _ _ _ _ _ I H) as (j & E). congruence. }
    split; [split; auto|split; [|split; [now exists (mkjob i 1 None)|auto]]].
    + intros x Hx. right. now apply (i_kp _ _ _ _ I).
    + intros b H. unfold known in *. rewrite EC, ED in H. destruct (i_anchor _ _ _ _ I b H) as [Kb|(c & j & Kc & G & R)]; [now left|right]. exists c, j. rewrite EC. auto.
    + intros b j c Kb G R. unfold known in *. rewrite EC, ED in *. destruct (Nat.eq_dec b a) as [->|N]; [tauto|]. rewrite G2 in G by exact N. exact (i_closed _ _ _ _ I b j c Kb G R).
    + intros b H. rewrite EC in H. destruct (i_true _ _ _ _ I b H) as (j & r & G & R & M). exists j, r. split; [auto|]. split; [exact R|]. eapply matches_carry; [|exact M]. auto.
    + intros b j r G R H. rewrite EC in H. destruct (Nat.eq_dec b a) as [->|N]; [rewrite G1 in G; injection G as <-; discriminate|]. rewrite G2 in G by exact N.
      destruct (i_hist _ _ _ _ I b j r G R H) as (d0 & Hd & M). exists d0. split; [exact Hd|]. eapply matches_carry; [|exact M]. auto.
    + intros b j G. destruct (Nat.eq_dec b a) as [->|N]; [rewrite G1 in G; injection G as <-; exact OK|]. rewrite G2 in G by exact N. exact (i_ids _ _ _ _ I b j G).
    + unfold known. rewrite EK, EC. destruct (i_cooked _ _ _ _ I) as (N & C). split; [exact N|]. intros k H. destruct (C k H) as (b & Kb & Ib). exists b. auto.
    + intros E. split; try (rewrite EC; auto; fail).
      * intros b k _. apply ID.
      * intros b j Kb G. exists j. auto using incl_refl.
      * intros b j c k _ _ _. apply ID.
Qed.
End Inv.
