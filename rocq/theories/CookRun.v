(* Proofs about CookModel: cooking a job. *)
From Coq Require Import Lia ZifyBool ZifyNat Permutation.
From Verif Require Export CookInv.
Open Scope nat_scope.

Definition oapp (o p : output) : output := let '(a, b, c, e) := o in let '(a', b', c', e') := p in (a ++ a', b ++ b', c ++ c', e ++ e').
Lemma oapp_assoc o p q : oapp (oapp o p) q = oapp o (oapp p q).
Proof. destruct o as [[[? ?] ?] ?], p as [[[? ?] ?] ?], q as [[[? ?] ?] ?]. cbn. now rewrite !app_assoc. Qed.
Lemma oapp_nil o : oapp o ([], [], [], []) = o.
Proof. destruct o as [[[? ?] ?] ?]. cbn. now rewrite !app_nil_r. Qed.
Lemma fresh_emit d x k : fresh d (Emit x k) = oapp ([], [], [x], []) (fresh d k).
Proof. cbn. destruct (fresh d k) as [[[? ?] ?] ?]. reflexivity. Qed.
Lemma fresh_refer d i k : fresh d (Refer i k) = oapp ([], [i], [], []) (fresh d k).
Proof. cbn. destruct (fresh d k) as [[[? ?] ?] ?]. reflexivity. Qed.
Lemma fresh_open d q k : fresh d (Open q k) = let '(t, e, c) := reading d q in oapp ([(q, t)], [], [], e) (fresh d (k c)).
Proof. cbn. destruct (reading d q) as [[t e] c]. destruct (fresh d (k c)) as [[[? ?] ?] ?]. reflexivity. Qed.

Lemma inv_kp jobs d D ok s X Kp Kp' P : Inv jobs d D ok s X Kp P -> incl Kp Kp' -> incl Kp' X -> Inv jobs d D ok s X Kp' P.
Proof. intros I H H'. split; try apply I; auto. intros a Ha. destruct (i_anchor _ _ _ _ _ _ _ _ I a Ha); auto. Qed.
Lemma inv_p jobs d D ok s X Kp P P' : Inv jobs d D ok s X Kp P -> (forall a, In a P -> In a P' \/ known s a \/ In a (deferred s)) -> Inv jobs d D ok s X Kp P'.
Proof. intros I H. split; try apply I. intros b j a Kb G R. destruct (i_closed _ _ _ _ _ _ _ _ I b j a Kb G R) as [?|[?|Hp]]; auto. destruct (H a Hp) as [?|[?|?]]; auto. Qed.

Section Run.
Context (dbg : bool) (jobs : id -> prog) (d : disk) (D : list disk) (ok : id -> Prop).
Hypothesis Hdated : dated (d :: D).
Hypothesis Htidy : forall i, tidy [] [] (jobs i).
Notation Inv := (Inv jobs d D ok).

Lemma openFile_reading q : openFile d q = reading d q.
Proof.
  pose proof (proj1 Hdated d q (or_introl eq_refl)) as N. unfold openFile, reading, stat in *. destruct (d q) as [|t|t c]; [reflexivity| |];
  destruct (Z.eqb_spec t 0) as [->|]; try reflexivity; now destruct N.
Qed.

Notation just := (reason dbg jobs D d).
(** [n] jobs that have not been looked at. *)
Definition unknown (s : st) (i : id) : Prop := forall a, known s a -> ~ idOf s a i.
Definition tower (s : st) (n : nat) : Prop := exists l, length l = n /\ NoDup l /\ forall i, In i l -> ok i /\ unknown s i.
Lemma unknown_step E X s s' i : Step E X s s' -> unknown s' i -> unknown s i.
Proof.
  intros T U a K (j & G & <-). destruct (t_known _ _ _ _ T a j K G) as (j' & G' & I & _). apply (U a (step_known _ _ _ _ _ T K)). exists j'. auto.
Qed.
Lemma tower_step E X s s' n : Step E X s s' -> tower s' n -> tower s n.
Proof. intros T (l & A & B & C). exists l. split; [exact A|]. split; [exact B|]. intros i H. split; [apply C, H|]. eapply unknown_step; [exact T|apply C, H]. Qed.

(** Writing to the result of the job being cooked. *)
Lemma write_ok s X Kp P a j r nb r' df :
  Inv s (nb ++ X) Kp P -> incl Kp X -> status (checked s) a = Some false -> getJob s a = Some j -> res j = Some r -> refs r' = refs r ++ nb ->
  incl (deferred s) df -> (forall x, In x df -> In x (deferred s) \/ In x nb) -> (forall x, In x nb -> known s x \/ In x df \/ In x P) ->
  let s' := setDeferred (setJob s a (Some (mkjob (jid j) (count j) (Some r')))) df in
  Inv s' X Kp P /\ Step (eq a) X s s' /\ getJob s' a = Some (mkjob (jid j) (count j) (Some r')) /\ (forall b i, idOf s b i -> idOf s' b i).
Proof.
  intros I K ST E R RR DF DN NB s'. pose proof (getJob_lt _ _ _ E) as L.
  assert (G : forall b, getJob s' b = if a =? b then Some (mkjob (jid j) (count j) (Some r')) else getJob s b) by (intros; unfold s'; change (getJob (setDeferred ?x df) b) with (getJob x b); now apply getJob_set).
  assert (ID : forall b i, idOf s b i -> idOf s' b i).
  { intros b i (k & Ek & <-). unfold idOf. rewrite G. destruct (Nat.eqb_spec a b) as [<-|N]; [|eauto]. eexists. split; [reflexivity|]. cbn. congruence. }
  assert (W : WF s' X).
  { split.
    - intros b c k1 k2. rewrite !G. intros E1 E2 IE.
      assert (Q : forall b k, (if a =? b then Some (mkjob (jid j) (count j) (Some r')) else getJob s b) = Some k -> exists k', getJob s b = Some k' /\ jid k' = jid k).
      { intros b' k H. destruct (Nat.eqb_spec a b') as [<-|]; [injection H as <-; now exists j|now exists k]. }
      destruct (Q _ _ E1) as (k1' & G1 & I1). destruct (Q _ _ E2) as (k2' & G2 & I2). apply (wf_ids _ _ (i_wf _ _ _ _ _ _ _ _ I) b c k1' k2' G1 G2). congruence.
    - intros b. rewrite G. pose proof (inner_set s a j (Some (mkjob (jid j) (count j) (Some r'))) b E) as IN. cbn [res refsOf] in IN. rewrite R in IN. cbn [refsOf] in IN. rewrite RR, occ_app in IN.
      change (heap s') with (heap (setJob s a (Some (mkjob (jid j) (count j) (Some r'))))).
      pose proof (wf_count _ _ (i_wf _ _ _ _ _ _ _ _ I) b) as C. rewrite occ_app in C. destruct (Nat.eqb_spec a b) as [<-|N]; [rewrite E in C; cbn [count]; lia|]. destruct (getJob s b); lia. }
  assert (NF : forall b x, status (checked s) b = Some x -> x = true -> a <> b) by (intros b x H -> <-; congruence).
  split; [split; auto|split; [split; auto|split; auto]].
  - intros b H. change (known s' b) with (known s b) in H. cbn in H.
    assert (Q : In b nb -> In b Kp \/ exists c k, known s' c /\ getJob s' c = Some k /\ In b (refsOf (res k))).
    { intros Hb. right. exists a. eexists. split; [unfold known; cbn; congruence|]. rewrite G, Nat.eqb_refl. split; [reflexivity|]. cbn. rewrite RR. apply in_or_app. now right. }
    assert (Q2 : known s b \/ In b (deferred s) -> In b Kp \/ exists c k, known s' c /\ getJob s' c = Some k /\ In b (refsOf (res k))).
    { intros Hb. destruct (i_anchor _ _ _ _ _ _ _ _ I b Hb) as [?|(c & k & Kc & Gc & Rc)]; [now left|right]. exists c. rewrite G. destruct (Nat.eqb_spec a c) as [<-|N].
      - eexists. split; [exact Kc|]. split; [reflexivity|]. cbn. rewrite RR. apply in_or_app. left. assert (k = j) by congruence. subst k. rewrite R in Rc. exact Rc.
      - exists k. auto. }
    destruct H as [H|H]; [auto|]. destruct (DN _ H); auto.
  - intros b k c Kb. rewrite G. change (known s' c) with (known s c). cbn [deferred setDeferred s']. destruct (Nat.eqb_spec a b) as [<-|N].
    + intros [= <-]. cbn. rewrite RR. intros H. apply in_app_or in H. destruct H as [H|H]; [|now apply NB].
      assert (H' : In c (refsOf (res j))) by (rewrite R; exact H). destruct (i_closed _ _ _ _ _ _ _ _ I a j c Kb E H') as [?|[?|?]]; auto.
    + intros Gk Rk. destruct (i_closed _ _ _ _ _ _ _ _ I b k c Kb Gk Rk) as [?|[?|?]]; auto.
  - intros b H. destruct (i_true _ _ _ _ _ _ _ _ I b H) as (k & x & Gk & Rk & M). exists k, x. rewrite G. rewrite (proj2 (Nat.eqb_neq a b) (NF b true H eq_refl)). split; [exact Gk|]. split; [exact Rk|]. eapply matches_carry; [|exact M]. auto.
  - intros b k x. rewrite G. change (checked s') with (checked s). destruct (Nat.eqb_spec a b) as [<-|N]; [congruence|]. intros Gk Rk H. destruct (i_hist _ _ _ _ _ _ _ _ I b k x Gk Rk H) as (d0 & Hd & M). exists d0. split; [exact Hd|]. eapply matches_carry; [|exact M]. auto.
  - intros b k. rewrite G. destruct (Nat.eqb_spec a b) as [<-|N]; [intros [= <-]; exact (i_ids _ _ _ _ _ _ _ _ I a j E)|]. apply (i_ids _ _ _ _ _ _ _ _ I).
  - destruct (i_cooked _ _ _ _ _ _ _ _ I) as (N & C). split; [exact N|]. intros i H. destruct (C i H) as (b & Kb & Ib). exists b. auto.
  - intros b k Kb Gk. rewrite G. destruct (Nat.eqb_spec a b) as [<-|N].
    + eexists. split; [reflexivity|]. cbn. assert (k = j) by congruence. subst k. split; [reflexivity|]. split; [|congruence]. rewrite R, RR. cbn. apply incl_appl, incl_refl.
    + exists k. auto using incl_refl.
  - rewrite G, Nat.eqb_refl. reflexivity.
Qed.

Definition post (n : nat) (s : st) (X Kp P : list addr) (b : addr) (o : outcome st) : Prop :=
  match o with
  | Ok s' => Inv s' X Kp P /\ Step (fun _ => False) X s s' /\ status (checked s') b = Some true
  | Dead w => just w
  | Deep => tower s n
  end.
Context (n : nat) (rec : st -> addr -> outcome st).
Hypothesis Hrec : forall s X Kp P b, Inv s X Kp P -> In b Kp -> (status (checked s) b = Some false -> just Loop) -> post n s X Kp P b (rec s b).

Lemma matches_write s s' r o r' o' : (forall b i, idOf s b i -> idOf s' b i) -> matches s r o ->
  deps r' = deps r ++ (let '(x, _, _, _) := o' in x) -> outs r' = outs r ++ (let '(_, _, x, _) := o' in x) -> errs r' = errs r ++ (let '(_, _, _, x) := o' in x) ->
  (exists nb, refs r' = refs r ++ nb /\ Forall2 (idOf s') nb (referred o')) -> matches s' r' (oapp o o').
Proof.
  intros ID M A B C (nb & R & F). destruct o as [[[ds rs] os] es]. destruct o' as [[[ds' rs'] os'] es']. cbn in *. destruct M as (M1 & M2 & M3 & M4).
  repeat split; [congruence| |congruence|congruence]. rewrite R. apply Forall2_app; [|exact F]. eapply Forall2_imp_in; [|exact M2]. auto.
Qed.
Lemma Forall2_in_l {A B} (Q : A -> B -> Prop) l k a : Forall2 Q l k -> In a l -> exists b, In b k /\ Q a b.
Proof. intros F. induction F as [|x y l k Qxy F IH]; intros H; [contradiction|]. destruct H as [<-|H]; [exists y; split; [now left|exact Qxy]|]. destruct (IH H) as (b & Hb & Qb). exists b. split; [now right|exact Qb]. Qed.
Lemma Forall2_in_r {A B} (Q : A -> B -> Prop) l k b : Forall2 Q l k -> In b k -> exists a, In a l /\ Q a b.
Proof. intros F. induction F as [|x y l k Qxy F IH]; intros H; [contradiction|]. destruct H as [<-|H]; [exists x; split; [now left|exact Qxy]|]. destruct (IH H) as (a & Ha & Qa). exists a. split; [now right|exact Qa]. Qed.

Lemma run_ok a X Kp P p : forall locals now seen s j r o,
  Inv s (locals ++ X) (locals ++ Kp) P -> incl Kp X -> status (checked s) a = Some false -> getJob s a = Some j -> res j = Some r ->
  matches s r o -> (forall i, In i (referred o) <-> In i seen) -> Forall2 (idOf s) locals now -> tidy now seen p -> within ok p ->
  ((forall i, noNow (jobs i)) -> noNow p) -> ((forall i, refersOnce [] (jobs i)) -> refersOnce seen p) ->
  match run d rec a p locals s with
  | Ok s' => Inv s' X Kp P /\ Step (eq a) X s s' /\ status (checked s') a = Some false /\
      exists j' r', getJob s' a = Some j' /\ jid j' = jid j /\ res j' = Some r' /\ matches s' r' (oapp o (fresh d p))
  | Dead w => just w
  | Deep => tower s n
  end.
Proof.
  induction p as [|x k IH|q k IH|i k IH|i k IH]; intros locals now seen s j r o I K ST E R M SE FL TI WI HN HO; cbn [run].
  - (* End *)
    assert (I' : Inv s (locals ++ X) Kp P).
    { split; try apply I; [intros x Hx; apply in_or_app; right; now apply K|].
      intros b Hb. destruct (i_anchor _ _ _ _ _ _ _ _ I b Hb) as [Hk|]; [|now right]. apply in_app_or in Hk. destruct Hk as [Hk|]; [|now left]. right.
      exists a, j. split; [unfold known; congruence|]. split; [exact E|]. destruct (Forall2_in_l _ _ _ _ FL Hk) as (i & Hi & (jb & Gb & Ib)).
      apply TI, SE in Hi. rewrite R. cbn. destruct o as [[[ds rs] os] es]. destruct M as (_ & M & _). destruct (Forall2_in_r _ _ _ _ M Hi) as (c & Hc & (jc & Gc & Ic)).
      rewrite (wf_ids _ _ (i_wf _ _ _ _ _ _ _ _ I) b c jb jc Gb Gc ltac:(congruence)). exact Hc. }
    destruct (drop_inv jobs d D ok s locals X Kp P I' K) as (s' & -> & I2 & T & EC & _). cbn. split; [exact I2|]. split; [apply T|]. split; [congruence|].
    destruct (t_known _ _ _ _ (T (fun _ => False)) a j ltac:(unfold known; congruence) E) as (j' & E' & IJ & _ & RJ). exists j', r. split; [exact E'|]. split; [exact IJ|].
    split; [rewrite RJ; auto|]. rewrite oapp_nil. eapply matches_carry; [|exact M]. intros b i Hb. apply (t_refs _ _ _ _ (T (fun _ => False)) a j); [unfold known; congruence|exact E|]. rewrite R. exact Hb.
  - (* Emit *)
    unfold setRes. rewrite E. destruct j as [ji jc jr]. cbn in R. subst jr. cbn [bind].
    match goal with |- context [setJob s a (Some (mkjob ji jc (Some ?x)))] => set (r' := x) end.
    destruct (write_ok s (locals ++ X) (locals ++ Kp) P a _ r [] r' (deferred s) I (i_kp _ _ _ _ _ _ _ _ I) ST E eq_refl) as (I2 & T & G & ID); [cbn; now rewrite app_nil_r|apply incl_refl|auto|intros ? []|].
    cbn [jid count] in *. change (setDeferred ?x (deferred s)) with x in *. set (s' := setJob s a _) in *.
    rewrite fresh_emit, <- oapp_assoc. specialize (IH locals now seen s' _ r' (oapp o ([], [], [x], [])) I2 K ST G eq_refl).
    assert (MM : matches s' r' (oapp o ([], [], [x], []))). { apply (matches_write s s' r); auto; cbn; try now rewrite app_nil_r. exists []. rewrite app_nil_r. auto. }
    specialize (IH MM). assert (SE' : forall i, In i (referred (oapp o ([], [], [x], []))) <-> In i seen) by (intros i; rewrite <- SE; destruct o as [[[? ?] ?] ?]; cbn; now rewrite app_nil_r).
    specialize (IH SE' (Forall2_imp_in _ _ _ _ (fun b i _ => ID b i) FL) TI WI HN HO).
    assert (TX : Step (eq a) X s s') by (eapply step_weaken; [| |exact T]; auto; apply incl_appr, incl_refl).
    destruct (run d rec a k locals s') as [s2| |]; [|exact IH|exact (tower_step _ _ _ _ _ TX IH)].
    destruct IH as (I3 & T3 & S3 & Z3). split; [exact I3|]. split; [eapply step_trans; [exact TX|exact T3]|]. auto.
  - (* Open *)
    rewrite openFile_reading. rewrite fresh_open. destruct (reading d q) as [[t e] c] eqn:RD. rewrite <- oapp_assoc.
    unfold setRes. rewrite E. destruct j as [ji jc jr]. cbn in R. subst jr. cbn [bind].
    match goal with |- context [setJob s a (Some (mkjob ji jc (Some ?x)))] => set (r' := x) end.
    destruct (write_ok s (locals ++ X) (locals ++ Kp) P a _ r [] r' (deferred s) I (i_kp _ _ _ _ _ _ _ _ I) ST E eq_refl) as (I2 & T & G & ID); [cbn; now rewrite app_nil_r|apply incl_refl|auto|intros ? []|].
    cbn [jid count] in *. change (setDeferred ?x (deferred s)) with x in *. set (s' := setJob s a _) in *.
    specialize (IH c locals now seen s' _ r' (oapp o ([(q, t)], [], [], e)) I2 K ST G eq_refl).
    assert (MM : matches s' r' (oapp o ([(q, t)], [], [], e))). { apply (matches_write s s' r); auto; cbn; try now rewrite app_nil_r. exists []. rewrite app_nil_r. auto. }
    specialize (IH MM). assert (SE' : forall i, In i (referred (oapp o ([(q, t)], [], [], e))) <-> In i seen) by (intros i; rewrite <- SE; destruct o as [[[? ?] ?] ?]; cbn; now rewrite app_nil_r).
    specialize (IH SE' (Forall2_imp_in _ _ _ _ (fun b i _ => ID b i) FL) (TI c) (WI c) (fun h => HN h c) (fun h => HO h c)).
    assert (TX : Step (eq a) X s s') by (eapply step_weaken; [| |exact T]; auto; apply incl_appr, incl_refl).
    destruct (run d rec a (k c) locals s') as [s2| |]; [|exact IH|exact (tower_step _ _ _ _ _ TX IH)].
    destruct IH as (I3 & T3 & S3 & Z3). split; [exact I3|]. split; [eapply step_trans; [exact TX|exact T3]|]. auto.
  - (* Refer *)
    destruct (acquire_ok jobs d D ok s i _ _ _ I (proj1 WI)) as (s1 & b & -> & I1 & T1 & IB & EC & ED & EK). cbn [bind].
    destruct (t_known _ _ _ _ (T1 (fun _ => False)) a j ltac:(unfold known; congruence) E) as (j1 & E1 & IJ & _ & RJ). rewrite E1.
    assert (R1 : res j1 = Some r) by (rewrite RJ; auto). rewrite R1. cbn [refsOf].
    assert (M1 : matches s1 r o). { eapply matches_carry; [|exact M]. intros c i' Hc. apply (t_refs _ _ _ _ (T1 (fun _ => False)) a j); [unfold known; congruence|exact E|]. rewrite R. exact Hc. }
    destruct (existsb (Nat.eqb b) (refs r)) eqn:EX.
    { apply existsb_exists in EX. destruct EX as (b' & Hb & Eb). apply Nat.eqb_eq in Eb. subst b'. cbn. intros H. destruct (HO H) as (NI & _). apply NI, SE.
      destruct o as [[[ds rs] os] es]. destruct M1 as (_ & M1 & _). destruct (Forall2_in_l _ _ _ _ M1 Hb) as (i' & Hi & Ii). rewrite (idOf_unique _ _ _ _ IB Ii). exact Hi. }
    unfold setRes. rewrite E1. destruct j1 as [ji jc jr]. cbn in R1. subst jr. cbn [bind].
    match goal with |- context [setJob s1 a (Some (mkjob ji jc (Some ?x)))] => set (r' := x) end.
    set (df := match status (checked s1) b with Some _ => deferred s1 | None => defer (deferred s1) b end).
    assert (DF : incl (deferred s1) df /\ (forall x, In x df -> In x (deferred s1) \/ In x [b]) /\ (known s1 b \/ In b df)).
    { unfold df, known. destruct (status (checked s1) b) eqn:SB; [split; [apply incl_refl|split; [auto|left; discriminate]]|]. unfold defer. destruct (existsb (Nat.eqb b) (deferred s1)) eqn:XB.
      - split; [apply incl_refl|split; [auto|right]]. apply existsb_exists in XB. destruct XB as (c & Hc & Ec). apply Nat.eqb_eq in Ec. now subst c.
      - split; [apply incl_appl, incl_refl|]. split; [intros x Hx; apply in_app_or in Hx; tauto|right]. apply in_or_app. right. now left. }
    destruct DF as (DF1 & DF2 & DF3).
    assert (KL : incl (locals ++ Kp) (locals ++ X)) by (apply incl_app; [apply incl_appl, incl_refl|apply incl_appr; exact K]).
    destruct (write_ok s1 (locals ++ X) (locals ++ Kp) P a (mkjob ji jc (Some r)) r [b] r' df I1 KL ltac:(congruence) E1 eq_refl) as (I2 & T & G & ID); [reflexivity|exact DF1|exact DF2|intros x [<-|[]]; tauto|].
    cbn [jid count] in *.
    assert (EQ : (match status (checked (setJob s1 a (Some (mkjob ji jc (Some r'))))) b with Some _ => setJob s1 a (Some (mkjob ji jc (Some r'))) | None => setDeferred (setJob s1 a (Some (mkjob ji jc (Some r')))) (defer (deferred (setJob s1 a (Some (mkjob ji jc (Some r'))))) b) end)
       = setDeferred (setJob s1 a (Some (mkjob ji jc (Some r')))) df).
    { unfold df. cbn. destruct (status (checked s1) b); reflexivity. }
    rewrite EQ. set (s' := setDeferred _ df) in *.
    rewrite fresh_refer, <- oapp_assoc. specialize (IH locals now (i :: seen) s' _ r' (oapp o ([], [i], [], [])) I2 K ltac:(cbn; congruence) G eq_refl).
    assert (MM : matches s' r' (oapp o ([], [i], [], []))). { apply (matches_write s1 s' r); auto; cbn; try now rewrite app_nil_r. exists [b]. split; [reflexivity|]. constructor; [now apply ID|constructor]. }
    specialize (IH MM). assert (SE' : forall i', In i' (referred (oapp o ([], [i], [], []))) <-> In i' (i :: seen)) by (intros i'; cbn; rewrite <- SE; destruct o as [[[? ?] ?] ?]; cbn; rewrite in_app_iff; cbn; tauto).
    assert (FL' : Forall2 (idOf s') locals now). { eapply Forall2_imp_in; [|exact FL]. intros c i' Hc Hi. apply ID. apply (t_x _ _ _ _ (T1 (fun _ => False))); [apply in_or_app; now left|exact Hi]. }
    specialize (IH SE' FL' TI (proj2 WI) HN (fun h => proj2 (HO h))).
    assert (TX : Step (eq a) X s s') by (eapply step_trans; [eapply step_weaken; [| |exact (T1 (eq a))]|eapply step_weaken; [| |exact T]]; auto; apply incl_appr, incl_refl).
    destruct (run d rec a k locals s') as [s2| |]; [|exact IH|exact (tower_step _ _ _ _ _ TX IH)].
    destruct IH as (I3 & T3 & S3 & j' & r2 & Z1 & Z2 & Z3). split; [exact I3|].
    split; [eapply step_trans; [exact TX|exact T3]|].
    split; [exact S3|]. exists j', r2. split; [exact Z1|]. split; [cbn in Z2, IJ; congruence|]. exact Z3.
  - (* CookNow *)
    destruct (acquire_ok jobs d D ok s i _ _ _ I (proj1 WI)) as (s1 & b & -> & I1 & T1 & IB & EC & ED & EK). cbn [bind].
    assert (I1' : Inv s1 (b :: locals ++ X) (b :: locals ++ Kp) P).
    { apply (inv_kp _ _ _ _ _ _ (locals ++ Kp)); [exact I1|now apply incl_tl, incl_refl|]. intros y [<-|Hy]; [now left|right]. apply in_app_or in Hy. apply in_or_app. destruct Hy; auto. }
    assert (JL : just Loop) by (intros H; exact (HN H)).
    pose proof (Hrec s1 _ _ _ b I1' (or_introl eq_refl) (fun _ => JL)) as HR. destruct (rec s1 b) as [s2|w|]; cbn [bind]; [|exact HR|exact (tower_step _ _ _ _ _ (T1 (fun _ => False)) HR)].
    destruct HR as (I2 & T2 & _).
    destruct (t_known _ _ _ _ (T1 (fun _ => False)) a j ltac:(unfold known; congruence) E) as (j1 & E1 & IJ & _ & RJ).
    assert (K1 : known s1 a) by (unfold known; congruence).
    destruct (t_known _ _ _ _ T2 a j1 K1 E1) as (j2 & E2 & IJ2 & _ & RJ2).
    assert (R1 : res j1 = Some r) by (rewrite RJ; auto). assert (R2 : res j2 = Some r) by (rewrite RJ2; auto).
    assert (ST2 : status (checked s2) a = Some false) by (apply (t_status _ _ _ _ T2); congruence).
    assert (M2 : matches s2 r o).
    { eapply matches_carry; [|exact M]. intros c i' Hc Hi. apply (t_refs _ _ _ _ T2 a j1); [exact K1|exact E1|rewrite R1; exact Hc|]. apply (t_refs _ _ _ _ (T1 (fun _ => False)) a j); [unfold known; congruence|exact E|rewrite R; exact Hc|exact Hi]. }
    assert (FL' : Forall2 (idOf s2) (b :: locals) (i :: now)).
    { constructor; [apply (t_x _ _ _ _ T2); [now left|exact IB]|]. eapply Forall2_imp_in; [|exact FL]. intros c i' Hc Hi. apply (t_x _ _ _ _ T2); [right; apply in_or_app; now left|]. apply (t_x _ _ _ _ (T1 (fun _ => False))); [apply in_or_app; now left|exact Hi]. }
    specialize (IH (b :: locals) (i :: now) seen s2 j2 r o I2 K ST2 E2 R2 M2 SE FL' TI (proj2 WI) (fun h => match HN h with end) HO).
    assert (TX : Step (eq a) X s s2).
    { apply (step_trans _ _ _ s1).
      - apply (step_weaken (eq a) (eq a) (locals ++ X)); [auto|apply incl_appr, incl_refl|apply T1].
      - apply (step_weaken (fun _ => False) (eq a) (b :: locals ++ X)); [intros ? []|apply incl_tl, incl_appr, incl_refl|exact T2]. }
    destruct (run d rec a k (b :: locals) s2) as [s3| |]; [|exact IH|exact (tower_step _ _ _ _ _ TX IH)]. destruct IH as (I3 & T3 & S3 & j' & r2 & Z1 & Z2 & Z3). split; [exact I3|].
    split; [eapply step_trans; [exact TX|exact T3]|].
    split; [exact S3|]. exists j', r2. split; [exact Z1|]. split; [congruence|]. exact Z3.
Qed.
End Run.
