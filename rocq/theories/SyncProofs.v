(* Proofs about race detectors, events and lists of trace groups. *)
From Coq Require Import Lia ZifyBool ZifyNat Permutation.
From Verif Require Import SyncSpec.
Open Scope nat_scope.

Lemma set_eq {A} (f : nat -> A) i x : set f i x i = x.
Proof. unfold set. rewrite Nat.eqb_refl. reflexivity. Qed.
Lemma set_ne {A} (f : nat -> A) i j x : j <> i -> set f i x j = f j.
Proof. unfold set. intros H. destruct (Nat.eqb_spec j i); congruence. Qed.

(* ---- RaceDetector ---- *)
Lemma bracketed_section t l : bracketed (Enter t :: Exit t :: l) -> bracketed l.
Proof.
  intros H a b u Hl. specialize (H (Enter t :: Exit t :: a) b u ltac:(cbn; rewrite Hl; reflexivity)).
  unfold opened, closed in *. cbn in H. destruct (t =? u); cbn in H; lia.
Qed.

Lemma turns_cons o l : turns (o :: l) <-> enters o = true /\ forall a x b, l = a ++ x :: b -> enters x = Nat.odd (length a).
Proof.
  split.
  - intros H. split; [exact (H [] o l eq_refl)|]. intros a x b E. rewrite (H (o :: a) x b) by (rewrite E; reflexivity). cbn [length]. rewrite Nat.even_succ. reflexivity.
  - intros (H1 & H2) a x b E. destruct a as [|y a]; cbn [app] in E; injection E as <- E; [exact H1|]. cbn [length]. rewrite Nat.even_succ. exact (H2 a x b E).
Qed.
Lemma detector_turns : forall l, detect 0 l <> None <-> turns l.
Proof.
  assert (G : forall l, (detect 0 l <> None <-> turns l) /\ (detect 1 l <> None <-> forall a x b, l = a ++ x :: b -> enters x = Nat.odd (length a))).
  { induction l as [|o l (I0 & I1)].
    - split; (split; [intros _ a x b E; destruct a; discriminate|discriminate]).
    - split.
      + rewrite turns_cons. cbn [detect]. destruct o as [t|t]; cbn [rstep Nat.eqb negb enters]; [rewrite I1; split; [intros H; split; [reflexivity|exact H]|intros H; apply H]|]. split; [congruence|intros (H & _); discriminate].
      + cbn [detect]. destruct o as [t|t]; cbn [rstep Nat.eqb negb].
        * split; [congruence|]. intros H. specialize (H [] _ _ eq_refl). discriminate.
        * rewrite I0. split; [|intros H a x b E; rewrite (H (Exit t :: a) x b) by (rewrite E; reflexivity); cbn [length]; rewrite Nat.odd_succ; reflexivity].
          intros H a x b E. destruct a as [|y a]; cbn [app] in E; injection E as <- E; [reflexivity|]. cbn [length]. rewrite Nat.odd_succ. exact (H a x b E). }
  intros l. apply G.
Qed.

Theorem detector_exact : forall l, bracketed l -> (detect 0 l <> None <-> serial l).
Proof.
  assert (P : forall n l, length l <= n -> bracketed l -> (detect 0 l <> None <-> serial l)).
  { induction n as [|n IH]; intros l Hn B.
    - destruct l; [|cbn in Hn; lia]. split; intros _; [constructor|discriminate].
    - destruct l as [|[t|t] l].
      + split; intros _; [constructor|discriminate].
      + destruct l as [|[u|u] l].
        * split; intros _; [constructor|discriminate].
        * split; [intros H; cbn in H; congruence|]. intros H. inversion H.
        * assert (u = t) as ->.
          { specialize (B [Enter t; Exit u] l u eq_refl). unfold opened, closed in B. cbn in B. rewrite Nat.eqb_refl in B.
            cbn in B. destruct (Nat.eqb_spec t u); [congruence|cbn in B; lia]. }
          change (detect 0 (Enter t :: Exit t :: l)) with (detect 0 l). rewrite (IH l); [|cbn in Hn; lia|apply (bracketed_section t), B].
          split; intros H; [constructor; exact H|]. inversion H; assumption.
      + exfalso. specialize (B [Exit t] l t eq_refl). unfold opened, closed in B. cbn in B. rewrite Nat.eqb_refl in B. cbn in B. lia. }
  intros l. apply (P (length l)). reflexivity.
Qed.

(** Two threads, one after the other, with nothing between them to order their uses of the data. *)
Theorem detector_misses : forall t u, t <> u ->
  rmrun mem0 (fun _ => tv0) [REnter t; RUse t; RExit t; REnter u; RUse u; RExit u] = Raced /\
  detect 0 [Enter t; Exit t; Enter u; Exit u] = Some 0.
Proof.
  intros t u H. split; [|reflexivity]. assert (u <> t) as H' by congruence. apply Nat.eqb_neq in H'.
  cbn [rmrun]. unfold rmstep at 1.
  match goal with |- context [rmw ?a ?b ?c ?d ?e] => let x := eval vm_compute in (rmw a b c d e) in change (rmw a b c d e) with x end.
  cbv iota beta.
  unfold rmstep at 1. rewrite set_eq.
  match goal with |- context [touch ?b ?c ?d ?e] => let x := eval vm_compute in (touch b c d e) in change (touch b c d e) with x end.
  cbv iota beta. unfold rmstep at 1. rewrite set_eq.
  match goal with |- context [rmw ?a ?b ?c ?d ?e] => let x := eval vm_compute in (rmw a b c d e) in change (rmw a b c d e) with x end.
  cbv iota beta. unfold rmstep at 1. rewrite !(set_ne _ t u) by congruence.
  match goal with |- context [rmw ?a ?b ?c ?d ?e] => let x := eval vm_compute in (rmw a b c d e) in change (rmw a b c d e) with x end.
  cbv iota beta. unfold rmstep at 1. rewrite set_eq.
  match goal with |- context [touch ?b ?c ?d ?e] => let x := eval vm_compute in (touch b c d e) in change (touch b c d e) with x end.
  reflexivity.
Qed.

(* ---- ManualResetEvent ---- *)
Definition eholds (x : epc) : bool :=
  match x with ESet | EWake | EClear | ECheck | EUnlock _ => true | _ => false end.
Definition busy (x : epc) : option (call * bool) :=
  match x with
  | EIdle => None | ELock c => Some (c, false) | ESet => Some (Signal, false) | EWake => Some (Signal, true)
  | EClear => Some (Reset, false) | ECheck | ESleep | EAgain => Some (Wait, false) | EUnlock c => Some (c, true)
  end.
Record EInv (s : estate) : Prop := {
  e_mutex : forall t, emutex s = Some t <-> eholds (epcs s t) = true;
  e_sleep : forall t, estatus s = true -> epcs s t = ESleep -> exists u, epcs s u = EWake }.

Lemma einv_init b : EInv (einit b).
Proof. split; cbn; [intros t; split; discriminate|discriminate]. Qed.

Lemma wake_holds x : eholds (wake x) = eholds x.
Proof. destruct x; reflexivity. Qed.
Lemma wake_busy x : busy (wake x) = busy x.
Proof. destruct x; reflexivity. Qed.

Lemma einv_step s t m : EInv s -> EInv (fst (estep s t m)).
Proof.
  intros [A B]. unfold estep. pose proof (A t) as At.
  destruct (epcs s t) eqn:P; destruct m as [c'| |]; cbn [fst]; try (split; assumption).
  - (* EBegin *) split; cbn.
    + intros u. unfold set. destruct (Nat.eqb_spec u t) as [->|]; [rewrite At; cbn; tauto|apply A].
    + intros u. unfold set at 1. destruct (Nat.eqb_spec u t) as [->|]; [discriminate|]. intros H1 H2.
      destruct (B u H1 H2) as [v Hv]. exists v. rewrite set_ne; [exact Hv|]. intros ->. congruence.
  - (* ELock *) destruct (emutex s) as [v|] eqn:L; [split; [rewrite L|]; assumption|]. split; cbn.
    + intros u. unfold set. destruct (Nat.eqb_spec u t) as [->|Hu]; [destruct c; cbn; tauto|].
      split; [congruence|]. intros H. apply A in H. congruence.
    + intros u. unfold set at 1. destruct (Nat.eqb_spec u t) as [->|]; [destruct c; discriminate|]. intros H1 H2.
      destruct (B u H1 H2) as [v Hv]. exists v. rewrite set_ne; [exact Hv|]. intros ->. congruence.
  - (* ESet *) split; cbn.
    + intros u. unfold set. destruct (Nat.eqb_spec u t) as [->|]; [rewrite At; cbn; tauto|apply A].
    + intros u _ _. exists t. apply set_eq.
  - (* EWake *) split; cbn.
    + intros u. unfold set. destruct (Nat.eqb_spec u t) as [->|]; [rewrite At; cbn; tauto|]. rewrite wake_holds. apply A.
    + intros u. unfold set at 1. destruct (Nat.eqb_spec u t) as [->|]; [discriminate|]. destruct (epcs s u); discriminate.
  - (* EClear *) split; cbn; [|discriminate].
    intros u. unfold set. destruct (Nat.eqb_spec u t) as [->|]; [rewrite At; cbn; tauto|apply A].
  - (* ECheck *) assert (emutex s = Some t) as L by (apply At; reflexivity). destruct (estatus s) eqn:St; cbn [fst]; split; cbn.
    + intros u. unfold set. destruct (Nat.eqb_spec u t) as [->|]; [rewrite At; cbn; tauto|apply A].
    + intros u. unfold set at 1. destruct (Nat.eqb_spec u t) as [->|]; [discriminate|]. intros H1 H2.
      destruct (B u eq_refl H2) as [v Hv]. exists v. rewrite set_ne; [exact Hv|]. intros ->. congruence.
    + intros u. unfold set. destruct (Nat.eqb_spec u t) as [->|Hu]; [split; discriminate|].
      split; [discriminate|]. intros H. apply A in H. congruence.
    + discriminate.
  - (* ESpurious *) split; cbn.
    + intros u. unfold set. destruct (Nat.eqb_spec u t) as [->|]; [rewrite At; cbn; tauto|apply A].
    + intros u. unfold set at 1. destruct (Nat.eqb_spec u t) as [->|]; [discriminate|]. intros H1 H2.
      destruct (B u H1 H2) as [v Hv]. exists v. rewrite set_ne; [exact Hv|]. intros ->. congruence.
  - (* EAgain *) destruct (emutex s) as [v|] eqn:L; [split; [rewrite L|]; assumption|]. split; cbn.
    + intros u. unfold set. destruct (Nat.eqb_spec u t) as [->|Hu]; [cbn; tauto|].
      split; [congruence|]. intros H. apply A in H. congruence.
    + intros u. unfold set at 1. destruct (Nat.eqb_spec u t) as [->|]; [discriminate|]. intros H1 H2.
      destruct (B u H1 H2) as [v Hv]. exists v. rewrite set_ne; [exact Hv|]. intros ->. congruence.
  - (* EUnlock *) assert (emutex s = Some t) as L by (apply At; reflexivity). split; cbn.
    + intros u. unfold set. destruct (Nat.eqb_spec u t) as [->|Hu]; [split; discriminate|].
      split; [discriminate|]. intros H. apply A in H. congruence.
    + intros u. unfold set at 1. destruct (Nat.eqb_spec u t) as [->|]; [discriminate|]. intros H1 H2.
      destruct (B u H1 H2) as [v Hv]. exists v. rewrite set_ne; [exact Hv|]. intros ->. congruence.
Qed.

Lemma erun_app s a b : fst (erun s (a ++ b)) = fst (erun (fst (erun s a)) b).
Proof.
  revert s. induction a as [|[t m] a IH]; intros s; [reflexivity|]. cbn. destruct (estep s t m) as [s1 l1].
  specialize (IH s1). destruct (erun s1 (a ++ b)), (erun s1 a). cbn in *. exact IH.
Qed.
Lemma einv_run s sched : EInv s -> EInv (fst (erun s sched)).
Proof.
  revert s. induction sched as [|[t m] sched IH]; intros s H; [exact H|]. cbn. pose proof (einv_step s t m H) as H1.
  destruct (estep s t m) as [s1 l1]. specialize (IH s1 H1). destruct (erun s1 sched). exact IH.
Qed.

Lemma event_notes_ext b f g l : (forall t, f t = g t) -> event_notes b f l -> event_notes b g l.
Proof.
  assert (SE : forall f g : nat -> option (call * bool), (forall t, f t = g t) -> forall t x u, set f t x u = set g t x u).
  { intros f' g' H t x u. unfold set. destruct (u =? t); [reflexivity|apply H]. }
  intros H E. revert g H. induction E as [b f|b f t c l F E IH|b f t l F E IH|b f t l F E IH|f t l F E IH|b f t c l F E IH]; intros g H.
  - constructor.
  - apply en_called; [rewrite <- H; exact F|]. apply IH, SE, H.
  - apply en_signal; [rewrite <- H; exact F|]. apply IH, SE, H.
  - apply en_reset; [rewrite <- H; exact F|]. apply IH, SE, H.
  - apply en_wait; [rewrite <- H; exact F|]. apply IH, SE, H.
  - apply en_returned; [rewrite <- H; exact F|]. apply IH, SE, H.
Qed.

Lemma notes_step s t m l :
  event_notes (estatus (fst (estep s t m))) (fun u => busy (epcs (fst (estep s t m)) u)) l ->
  event_notes (estatus s) (fun u => busy (epcs s u)) (snd (estep s t m) ++ l).
Proof.
  intros H. unfold estep in *.
  assert (K : forall x, busy x = busy (epcs s t) -> forall u, busy (set (epcs s) t x u) = busy (epcs s u)).
  { intros x Hx u. unfold set. destruct (Nat.eqb_spec u t) as [->|]; [exact Hx|reflexivity]. }
  assert (N : forall x u, busy (set (epcs s) t x u) = set (fun v => busy (epcs s v)) t (busy x) u).
  { intros x u. unfold set. destruct (u =? t); reflexivity. }
  destruct (epcs s t) eqn:P; destruct m as [c'| |]; cbn [fst snd app] in *; try exact H; cbn in H.
  - apply en_called; [rewrite P; reflexivity|]. revert H. apply event_notes_ext. apply (N (ELock c')).
  - destruct (emutex s); [exact H|]. cbn in H. revert H. apply event_notes_ext. apply K. destruct c; reflexivity.
  - apply en_signal; [rewrite P; reflexivity|]. revert H. apply event_notes_ext. apply (N EWake).
  - revert H. apply event_notes_ext. intros u. unfold set. destruct (Nat.eqb_spec u t) as [->|]; [rewrite P; reflexivity|apply wake_busy].
  - apply en_reset; [rewrite P; reflexivity|]. revert H. apply event_notes_ext. apply (N (EUnlock Reset)).
  - destruct (estatus s); cbn in *.
    + apply en_wait; [rewrite P; reflexivity|]. revert H. apply event_notes_ext. apply (N (EUnlock Wait)).
    + revert H. apply event_notes_ext. apply K. reflexivity.
  - revert H. apply event_notes_ext. apply K. reflexivity.
  - destruct (emutex s); [exact H|]. cbn in H. revert H. apply event_notes_ext. apply K. reflexivity.
  - apply en_returned with (c := c); [rewrite P; reflexivity|]. revert H. apply event_notes_ext. apply (N EIdle).
Qed.

Theorem event_runs : forall b sched, event_notes b (fun _ => None) (snd (erun (einit b) sched)).
Proof.
  assert (P : forall sched s, event_notes (estatus s) (fun u => busy (epcs s u)) (snd (erun s sched))).
  { induction sched as [|[t m] sched IH]; intros s; cbn; [constructor|].
    pose proof (notes_step s t m) as H. destruct (estep s t m) as [s1 l1]. cbn in H. specialize (IH s1).
    destruct (erun s1 sched) as [s2 l2]. cbn in *. apply H, IH. }
  intros b sched. apply (P sched (einit b)).
Qed.

Theorem event_stuck : forall b sched, let s := fst (erun (einit b) sched) in stuck s ->
  (forall t, epcs s t = EIdle \/ epcs s t = ESleep) /\ (forall t, epcs s t = ESleep -> estatus s = false).
Proof.
  intros b sched s St. pose proof (einv_run _ sched (einv_init b)) as Iv. fold s in Iv. clearbody s. destruct Iv as [A B].
  assert (NC : forall t, eholds (epcs s t) = false).
  { intros t. destruct (eholds (epcs s t)) eqn:H; [|reflexivity]. exfalso. specialize (St t). unfold estep in St.
    destruct (epcs s t) eqn:P; try discriminate H; try discriminate St.
    - injection St as St. apply (f_equal epcs) in St. cbn in St. apply (f_equal (fun f => f t)) in St. rewrite set_eq in St. congruence.
    - destruct (estatus s); [discriminate|]. injection St as St. apply (f_equal epcs) in St. cbn in St.
      apply (f_equal (fun f => f t)) in St. rewrite set_eq in St. congruence. }
  assert (Mx : emutex s = None).
  { destruct (emutex s) as [t|] eqn:L; [|reflexivity]. pose proof (proj1 (A t) eq_refl) as L'. rewrite NC in L'. discriminate. }
  assert (All : forall t, epcs s t = EIdle \/ epcs s t = ESleep).
  { intros t. specialize (NC t). specialize (St t). unfold estep in St. rewrite Mx in St.
    destruct (epcs s t) eqn:P; try discriminate NC; auto.
    - exfalso. injection St as St. apply (f_equal emutex) in St. cbn in St. congruence.
    - exfalso. injection St as St. apply (f_equal emutex) in St. cbn in St. congruence. }
  split; [exact All|]. intros t Ht. destruct (estatus s) eqn:Es; [|reflexivity].
  destruct (B t eq_refl Ht) as [u Hu]. specialize (NC u). rewrite Hu in NC. discriminate.
Qed.

Definition erank (x : epc) : nat :=
  match x with EIdle => 0 | EUnlock _ => 1 | EWake => 2 | ESet => 3 | EClear => 2 | ECheck => 2 | EAgain => 4 | ELock _ => 5 | ESleep => 9 end.
Definition ego s t := fst (estep s t EGo).

(** One step of a thread that is not asleep, the mutex being free or its own. *)
Lemma event_go s t : EInv s -> (estatus s = true \/ epcs s t <> ECheck) -> epcs s t <> EIdle -> epcs s t <> ESleep ->
  (emutex s = None \/ emutex s = Some t) ->
  erank (epcs (ego s t) t) < erank (epcs s t) /\ (emutex (ego s t) = None \/ emutex (ego s t) = Some t) /\
  epcs (ego s t) t <> ESleep /\
  (epcs s t <> EClear -> estatus s = true -> estatus (ego s t) = true) /\
  (forall u, u <> t -> epcs (ego s t) u = epcs s u \/ epcs s u = ESleep /\ epcs (ego s t) u = EAgain) /\
  (epcs (ego s t) t = EClear -> epcs s t = ELock Reset).
Proof.
  intros [A B] St N1 N2 L. unfold ego, estep. pose proof (A t) as At. destruct (epcs s t) eqn:P; try congruence; cbn.
  - destruct (emutex s) as [u|] eqn:M.
    + destruct L as [L|[= ->]]; [discriminate|]. cbn in At. destruct At as [At _]. specialize (At eq_refl). discriminate.
    + cbn. rewrite set_eq. repeat split; auto; try (destruct c; cbn; (lia || discriminate || reflexivity)).
      intros u Hu. left. apply set_ne, Hu.
  - rewrite set_eq. repeat split; auto; try discriminate; try (cbn; lia). intros u Hu. left. apply set_ne, Hu.
  - rewrite set_eq. repeat split; auto; try discriminate; try (cbn; lia). intros u Hu. rewrite set_ne by exact Hu.
    destruct (epcs s u); auto.
  - rewrite set_eq. repeat split; auto; try discriminate; try congruence; try (cbn; lia). intros u Hu. left. apply set_ne, Hu.
  - destruct St as [St|St]; [|congruence]. rewrite St. cbn. rewrite set_eq. repeat split; auto; try discriminate; try (cbn; lia).
    intros u Hu. left. apply set_ne, Hu.
  - destruct (emutex s) as [u|] eqn:M.
    + destruct L as [L|[= ->]]; [discriminate|]. cbn in At. destruct At as [At _]. specialize (At eq_refl). discriminate.
    + cbn. rewrite set_eq. repeat split; auto; try discriminate; try (cbn; lia). intros u Hu. left. apply set_ne, Hu.
  - rewrite set_eq. repeat split; auto; try discriminate; try (cbn; lia). intros u Hu. left. apply set_ne, Hu.
Qed.

Lemma ego_run s t : fst (erun s [(t, EGo)]) = ego s t.
Proof. unfold ego. cbn. destruct (estep s t EGo). reflexivity. Qed.
Lemma ego_runs s t k : fst (erun s (repeat (t, EGo) (S k))) = fst (erun (ego s t) (repeat (t, EGo) k)).
Proof. change (repeat (t, EGo) (S k)) with ([(t, EGo)] ++ repeat (t, EGo) k). rewrite erun_app, ego_run. reflexivity. Qed.

Lemma event_finish : forall r s t, erank (epcs s t) <= r -> EInv s -> estatus s = true -> epcs s t <> ESleep ->
  (emutex s = None \/ emutex s = Some t) ->
  exists k, epcs (fst (erun s (repeat (t, EGo) k))) t = EIdle.
Proof.
  induction r as [|r IH]; intros s t Hr Iv St Sl L.
  - exists 0. cbn. destruct (epcs s t); cbn in Hr; try lia. reflexivity.
  - destruct (erank (epcs s t)) eqn:Rk; [apply (IH s t); auto; lia|].
    assert (epcs s t <> EIdle) as N1 by (intros X; rewrite X in Rk; discriminate).
    destruct (event_go s t Iv (or_introl St) N1 Sl L) as (R1 & R2 & R3 & R4 & R5 & R6).
    pose proof (einv_step s t EGo Iv) as Iv'. fold (ego s t) in Iv'.
    destruct (epcs s t) eqn:P.
    6: { (* ECheck *) destruct (IH (ego s t) t ltac:(lia) Iv' (R4 ltac:(congruence) St) R3 R2) as [k K]. exists (S k). rewrite ego_runs. exact K. }
    all: try congruence.
    all: try (destruct (IH (ego s t) t ltac:(lia) Iv' (R4 ltac:(congruence) St) R3 R2) as [k K]; exists (S k); rewrite ego_runs; exact K).
    (* EClear *)
    exists 2. rewrite !ego_runs. change (fst (erun (ego (ego s t) t) (repeat (t, EGo) 0))) with (ego (ego s t) t).
    assert (epcs (ego s t) t = EUnlock Reset) as P1. { unfold ego, estep. rewrite P. cbn. apply set_eq. }
    unfold ego at 1, estep. rewrite P1. cbn. apply set_eq.
Qed.

Lemma event_release : forall r s u, erank (epcs s u) <= r -> EInv s -> estatus s = true -> emutex s = Some u -> epcs s u <> EClear ->
  exists k, let s' := fst (erun s (repeat (u, EGo) k)) in emutex s' = None /\ estatus s' = true.
Proof.
  induction r as [|r IH]; intros s u Hr Iv St L NC; pose proof (proj1 (e_mutex _ Iv u) L) as H.
  - destruct (epcs s u); cbn in *; try discriminate; lia.
  - assert (N1 : epcs s u <> EIdle) by (intros X; rewrite X in H; discriminate).
    assert (N2 : epcs s u <> ESleep) by (intros X; rewrite X in H; discriminate).
    destruct (event_go s u Iv (or_introl St) N1 N2 (or_intror L)) as (R1 & R2 & R3 & R4 & R5 & R6).
    pose proof (einv_step s u EGo Iv) as Iv'. fold (ego s u) in Iv'. specialize (R4 NC St).
    destruct R2 as [R2|R2].
    + exists 1. rewrite ego_runs. cbn. auto.
    + destruct (IH (ego s u) u ltac:(lia) Iv' R4 R2) as [k K].
      * intros X. apply R6 in X. rewrite X in H. discriminate.
      * exists (S k). rewrite ego_runs. exact K.
Qed.

Theorem event_available : forall b sched t, let s := fst (erun (einit b) sched) in
  estatus s = true -> (forall u, epcs s u <> EClear) ->
  exists more, (forall x, In x more -> snd x = EGo) /\ epcs (fst (erun (einit b) (sched ++ more))) t = EIdle.
Proof.
  intros b sched t s St NC. pose proof (einv_run _ sched (einv_init b)) as Iv. fold s in Iv.
  assert (Rep : forall (u : nat) k x, In x (repeat (u, EGo) k) -> snd x = EGo) by (intros u k x H; apply repeat_spec in H; subst; reflexivity).
  destruct (emutex s) as [u|] eqn:L.
  - destruct (Nat.eq_dec u t) as [->|Hu].
    + assert (epcs s t <> ESleep) as Sl. { intros X. apply (e_mutex _ Iv) in L. rewrite X in L. discriminate. }
      destruct (event_finish _ s t (le_n _) Iv St Sl (or_intror L)) as [k K].
      exists (repeat (t, EGo) k). split; [apply Rep|]. rewrite erun_app. exact K.
    + destruct (event_release _ s u (le_n _) Iv St L (NC u)) as (k & K1 & K2).
      pose proof (einv_run _ (repeat (u, EGo) k) Iv) as Iv'. set (s' := fst (erun s (repeat (u, EGo) k))) in *.
      assert (epcs s' t <> ESleep) as Sl.
      { intros X. destruct (e_sleep _ Iv' t K2 X) as [v Hv]. assert (emutex s' = Some v) as Y by (apply (e_mutex _ Iv'); rewrite Hv; reflexivity).
        congruence. }
      destruct (event_finish _ s' t (le_n _) Iv' K2 Sl (or_introl K1)) as [j J].
      exists (repeat (u, EGo) k ++ repeat (t, EGo) j). split; [intros x [X|X]%in_app_or; apply Rep in X; exact X|].
      rewrite !erun_app. exact J.
  - assert (epcs s t <> ESleep) as Sl.
    { intros X. destruct (e_sleep _ Iv t St X) as [v Hv]. assert (emutex s = Some v) as Y by (apply (e_mutex _ Iv); rewrite Hv; reflexivity).
      congruence. }
    destruct (event_finish _ s t (le_n _) Iv St Sl (or_introl L)) as [k K].
    exists (repeat (t, EGo) k). split; [apply Rep|]. rewrite erun_app. exact K.
Qed.

(* ---- Trace_Counters ---- *)
Fixpoint chain (nx : nat -> option nat) (g : option nat) (l : list nat) : Prop :=
  match l with
  | [] => g = None
  | x :: l => g = Some x /\ chain nx (nx x) l
  end.
Record GInv (s : gstate) (l : list nat) : Prop := {
  g_chain : chain (gnext s) (first s) l;
  g_nodup : NoDup l;
  g_in : forall g, In g l <-> gpcs s g = GAdded;
  g_link : forall g old, gpcs s g = GSwap old -> gnext s g = old;
  g_hist : forall g, In (false, g) (ghist s) <-> In g l;
  g_new : forall g, In (true, g) (ghist s) <-> gpcs s g <> GNew;
  g_order : forall g h, In h l -> (exists a b c, ghist s = a ++ (false, g) :: b ++ (true, h) :: c) ->
    exists a b c, l = a ++ h :: b ++ g :: c }.

Lemma chain_set nx g x v l : ~ In x l -> chain nx g l -> chain (set nx x v) g l.
Proof.
  revert g. induction l as [|y l IH]; intros g H C; [exact C|]. destruct C as [-> C]. cbn. split; [reflexivity|].
  rewrite set_ne; [|intros ->; apply H; left; reflexivity]. apply IH; [|exact C]. intros X. apply H. right. exact X.
Qed.
Lemma hist_snoc {A} (x y z : A) l : (exists a b c, l ++ [z] = a ++ x :: b ++ y :: c) ->
  (exists a b c, l = a ++ x :: b ++ y :: c) \/ In x l /\ y = z.
Proof.
  intros (a & b & c & E). destruct c as [|w c] using rev_ind.
  - right. assert (l ++ [z] = (a ++ x :: b) ++ [y]) as E' by (rewrite E, <- app_assoc; reflexivity).
    apply app_inj_tail in E' as [-> ->]. split; [|reflexivity]. apply in_or_app. right. left. reflexivity.
  - left. assert (l ++ [z] = (a ++ x :: b ++ y :: c) ++ [w]) as E'.
    { rewrite E. rewrite <- !app_assoc. cbn. rewrite <- app_assoc. reflexivity. }
    apply app_inj_tail in E' as [-> _]. exists a, b, c. reflexivity.
Qed.
Lemma same_eq a b : same a b = true -> a = b.
Proof. destruct a, b; cbn; try discriminate; auto. intros ->%Nat.eqb_eq. reflexivity. Qed.

Lemma ginv_init : GInv ginit [].
Proof.
  split; cbn; try tauto; try discriminate; try constructor; try discriminate; try tauto.
Qed.

Lemma ginv_step s l g m : GInv s l -> exists l', GInv (gstep s g m) l'.
Proof.
  intros Iv. pose proof Iv as [C N I L H W O]. unfold gstep.
  assert (NA : gpcs s g <> GAdded -> ~ In g l) by (intros X Y; apply I in Y; contradiction).
  assert (Pass : forall f x nx, gpcs s g <> GAdded -> x <> GAdded -> gpcs s g <> GNew -> x <> GNew -> chain nx (first s) l ->
    (forall h old, h <> g -> gpcs s h = GSwap old -> nx h = old) -> (forall old, x = GSwap old -> nx g = old) ->
    f = set (gpcs s) g x -> GInv (mkg (first s) nx f (ghist s)) l).
  { intros f x nx H1 H2 H3 H4 H5 H6 H7 ->. split; cbn; try assumption.
    - intros h. unfold set. destruct (Nat.eqb_spec h g) as [->|]; [|apply I]. rewrite I. tauto.
    - intros h old. unfold set. destruct (Nat.eqb_spec h g) as [->|]; auto.
    - intros h. unfold set. destruct (Nat.eqb_spec h g) as [->|]; [|apply W]. rewrite W. tauto. }
  destruct (gpcs s g) eqn:P; destruct m; try (exists l; exact Iv).
  - exists l. split; cbn; try assumption.
    + intros h. unfold set. destruct (Nat.eqb_spec h g) as [->|]; [|apply I]. rewrite I, P. split; discriminate.
    + intros h old. unfold set. destruct (Nat.eqb_spec h g) as [->|]; [discriminate|apply L].
    + intros h. rewrite <- H. split; [intros [X|[X|[]]]%in_app_or; [exact X|discriminate]|]. intros X. apply in_or_app. left. exact X.
    + intros h. unfold set. destruct (Nat.eqb_spec h g) as [->|Hh].
      * split; [discriminate|]. intros _. apply in_or_app. right. left. reflexivity.
      * rewrite <- W. split; [intros [X|[[= X]|[]]]%in_app_or; [exact X|congruence]|]. intros X. apply in_or_app. left. exact X.
    + intros a h Hh E. apply hist_snoc in E as [E|[_ [= ->]]]; [exact (O a h Hh E)|]. exfalso. apply (NA ltac:(discriminate)), Hh.
  - exists l. apply (Pass _ (GLink (first s)) (gnext s)); try discriminate; auto.
  - exists l. apply (Pass _ (GSwap old) (set (gnext s) g old)); try discriminate; auto.
    + apply chain_set; [apply NA; discriminate|exact C].
    + intros h o Hh Ho. rewrite set_ne by exact Hh. exact (L h o Ho).
    + intros o [= <-]. apply set_eq.
  - destruct (same (first s) old) eqn:Sm.
    + apply same_eq in Sm. exists (g :: l). specialize (NA ltac:(discriminate)). split; cbn.
      * split; [reflexivity|]. rewrite (L g old P), <- Sm. exact C.
      * constructor; assumption.
      * intros h. unfold set. destruct (Nat.eqb_spec h g) as [->|Hh]; [tauto|]. rewrite I. split; [intros [X|X]; [congruence|exact X]|auto].
      * intros h o. unfold set. destruct (Nat.eqb_spec h g) as [->|]; [discriminate|apply L].
      * intros h. split.
        -- intros [X|[[= <-]|[]]]%in_app_or; [right; apply H, X|left; reflexivity].
        -- intros [<-|X]; apply in_or_app; [right; left; reflexivity|left; apply H, X].
      * intros h. unfold set. destruct (Nat.eqb_spec h g) as [->|Hh].
        -- split; [discriminate|]. intros _. apply in_or_app. left. apply W. congruence.
        -- rewrite <- W. split; [intros [X|[X|[]]]%in_app_or; [exact X|discriminate]|]. intros X. apply in_or_app. left. exact X.
      * intros a h Hh E. apply hist_snoc in E as [E|[_ [=]]].
        assert (In a l) as Ha. { apply H. destruct E as (x & y & z & ->). apply in_or_app. right. left. reflexivity. }
        destruct Hh as [<-|Hh].
        -- apply in_split in Ha as (x & y & ->). exists [], x, y. reflexivity.
        -- destruct (O a h Hh E) as (x & y & z & ->). exists (g :: x), y, z. reflexivity.
    + exists l. apply (Pass _ (GLink (first s)) (gnext s)); try discriminate; auto.
  - exists l. apply (Pass _ (GLink (first s)) (gnext s)); try discriminate; auto.
Qed.

Lemma ginv_run sched : exists l, GInv (grun ginit sched) l.
Proof.
  induction sched as [|[g m] sched [l IH]] using rev_ind; [exists []; exact ginv_init|].
  unfold grun in *. rewrite fold_left_app. cbn. apply (ginv_step _ l), IH.
Qed.
Lemma visit_chain s l g fuel : chain (gnext s) g l -> length l <= fuel -> visit fuel s g = Some l.
Proof.
  revert g fuel. induction l as [|x l IH]; intros g fuel C Hf; cbn in C, Hf.
  - subst g. destruct fuel; reflexivity.
  - destruct C as [-> C]. destruct fuel as [|fuel]; [lia|]. cbn. rewrite (IH _ fuel C ltac:(lia)). reflexivity.
Qed.

Theorem groups_listed : forall sched, let s := grun ginit sched in
  exists order, added_order s order /\ forall fuel, length order <= fuel -> visit fuel s (first s) = Some (rev order).
Proof.
  intros sched s. destruct (ginv_run sched) as [l [C N I L H W O]]. fold s in C, I, L, H, W, O.
  exists (rev l). split.
  - split; [apply NoDup_rev, N|]. split; [intros g; rewrite <- in_rev, H; reflexivity|].
    intros g h Hh E. rewrite <- in_rev in Hh. destruct (O g h Hh E) as (a & b & c & ->). exists (rev c), (rev b), (rev a).
    rewrite rev_app_distr. cbn. rewrite rev_app_distr. cbn. repeat (rewrite <- !app_assoc; cbn). reflexivity.
  - intros fuel Hf. rewrite rev_length in Hf. rewrite rev_involutive. apply visit_chain; assumption.
Qed.

Lemma trace_length c i : length (trace c i) = length c.
Proof. unfold trace. destruct (nth_error c i); [apply upd_length|reflexivity]. Qed.

Theorem counters_count : forall n l i, i < n ->
  nth_error (fold_left trace l (repeat 0%Z n)) i = Some (Z.of_nat (count_occ Nat.eq_dec l i) mod 2 ^ 32)%Z.
Proof.
  intros n l i Hi.
  assert (Len : forall l, length (fold_left trace l (repeat 0%Z n)) = n).
  { intros k. induction k as [|x k IH] using rev_ind; [apply repeat_length|]. rewrite fold_left_app. cbn. rewrite trace_length. exact IH. }
  induction l as [|x l IH] using rev_ind.
  - cbn. rewrite nth_error_repeat by exact Hi. reflexivity.
  - rewrite fold_left_app. cbn [fold_left]. unfold trace at 1. rewrite count_occ_app.
    destruct (nth_error (fold_left trace l (repeat 0%Z n)) x) as [v|] eqn:Hx.
    + rewrite nth_upd, Len. cbn [count_occ]. destruct (Nat.eqb_spec x i) as [->|Hne].
      * destruct (Nat.ltb_spec i n); [|lia]. destruct (Nat.eq_dec i i); [|lia]. assert (v = (Z.of_nat (count_occ Nat.eq_dec l i) mod 2 ^ 32)%Z) as -> by congruence.
        rewrite Zplus_mod_idemp_l. apply (f_equal (fun z => Some (z mod 2 ^ 32)%Z)). rewrite Nat2Z.inj_add. reflexivity.
      * destruct (Nat.eq_dec x i); [lia|]. rewrite Nat.add_0_r. exact IH.
    + apply nth_error_None in Hx. rewrite Len in Hx. cbn. destruct (Nat.eq_dec x i); [lia|]. rewrite Nat.add_0_r. exact IH.
Qed.

Theorem counters_printed : forall n l,
  printed (fold_left trace l (repeat 0%Z n)) = true <->
  exists i, i < n /\ (Z.of_nat (count_occ Nat.eq_dec l i) mod 2 ^ 32 <> 0)%Z.
Proof.
  intros n l. unfold printed. rewrite existsb_exists.
  assert (Len : length (fold_left trace l (repeat 0%Z n)) = n).
  { induction l as [|x k IH] using rev_ind; [apply repeat_length|]. rewrite fold_left_app. cbn. rewrite trace_length. exact IH. }
  split.
  - intros (x & H1 & H2). apply In_nth_error in H1 as [i Hi].
    assert (i < n) as Hn. { rewrite <- Len. apply nth_error_Some. congruence. }
    exists i. split; [exact Hn|]. rewrite (counters_count n l i Hn) in Hi. assert (x = (Z.of_nat (count_occ Nat.eq_dec l i) mod 2 ^ 32)%Z) as -> by congruence. lia.
  - intros (i & Hn & H). eexists. split; [apply (nth_error_In _ i), (counters_count n l i Hn)|]. lia.
Qed.

Theorem counter_wraps : exists l, l <> [] /\ printed (fold_left trace l (repeat 0%Z 1)) = false.
Proof.
  assert (exists n, (2 ^ 32)%Z = Z.of_nat n) as [n Hn] by (apply Z_of_nat_complete; lia).
  exists (repeat 0 n). split.
  - intros H. apply (f_equal (@length nat)) in H. rewrite repeat_length in H. cbn [length] in H. lia.
  - destruct (printed _) eqn:P; [|reflexivity]. exfalso. apply counters_printed in P as (i & Hi & H). assert (i = 0) as -> by lia.
    apply H. assert (forall k, count_occ Nat.eq_dec (repeat 0 k) 0 = k) as X.
    { induction k as [|k IH]; [reflexivity|]. cbn [repeat]. rewrite count_occ_cons_eq by reflexivity. rewrite IH. reflexivity. }
    rewrite X, <- Hn. reflexivity.
Qed.
